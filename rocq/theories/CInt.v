(** Fixed width C integers over Z.

    The model of every module represents C integer objects by elements of Z.
    The functions below are the conversions the C language performs when a
    value is stored into an object of the given type: reduction modulo 2^n for
    unsigned types (C11 6.3.1.3p2) and, for signed types, the two's complement
    reduction that gcc and clang define for out of range conversions
    (implementation defined, C11 6.3.1.3p3). Signed arithmetic overflow is not
    a conversion: modules that can overflow report it as a separate outcome. *)

From Coq Require Import ZArith List Lia.
Import ListNotations.
Local Open Scope Z_scope.

Definition u8 (x : Z) : Z := x mod 256.
Definition u16 (x : Z) : Z := x mod 65536.
Definition u32 (x : Z) : Z := x mod 4294967296.
Definition u64 (x : Z) : Z := x mod 18446744073709551616.

Definition s8 (x : Z) : Z := (x + 128) mod 256 - 128.
Definition s16 (x : Z) : Z := (x + 32768) mod 65536 - 32768.
Definition s32 (x : Z) : Z := (x + 2147483648) mod 4294967296 - 2147483648.
Definition s64 (x : Z) : Z :=
  (x + 9223372036854775808) mod 18446744073709551616 - 9223372036854775808.

(** Ranges of the C types (limits.h on the platforms diminuto supports). *)
Definition is_u8 (x : Z) : Prop := 0 <= x < 256.
Definition is_u16 (x : Z) : Prop := 0 <= x < 65536.
Definition is_u32 (x : Z) : Prop := 0 <= x < 4294967296.
Definition is_u64 (x : Z) : Prop := 0 <= x < 18446744073709551616.
Definition is_s16 (x : Z) : Prop := -32768 <= x < 32768.
Definition is_s32 (x : Z) : Prop := -2147483648 <= x < 2147483648.
Definition is_s64 (x : Z) : Prop := -9223372036854775808 <= x < 9223372036854775808.

(** An octet string. *)
Definition octets (l : list Z) : Prop := Forall is_u8 l.

(** Checked signed results: [None] is signed overflow (undefined behaviour). *)
Definition ck_s32 (x : Z) : option Z :=
  if (andb (-2147483648 <=? x) (x <? 2147483648)) then Some x else None.
Definition ck_s64 (x : Z) : option Z :=
  if (andb (-9223372036854775808 <=? x) (x <? 9223372036854775808)) then Some x else None.
