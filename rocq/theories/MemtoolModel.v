(** Model of bin/memtool.c: the utility that reads and writes memory and the registers of
    devices. Memory is of octets, by physical address, and the host is little endian. The
    accesses that are made are recorded. Undefined behaviour, which is [None]: an access that
    is outside of the region that was mapped, that is not aligned, and a shift by too much.
    Simplifications: memory keeps what is written to it and nothing else changes it; the
    pages around the region count as outside of it; the debug output, the usage message and
    the core dump setting are left out; getopt(3) has taken the command line apart. *)

From Coq Require Import ZArith List Bool.
From Verif Require Import CUtil CInt NumberModel DecModel.
Import ListNotations.
Local Open Scope Z_scope.

(** bin/memtool.c:163: the options, with their arguments. *)
Inductive flag :=
| Width (w : Z) (s : list Z)                    (* -1, -2, -4, -8 *)
| Region (s : list Z)                           (* -a *)
| Extent (s : list Z)                           (* -l *)
| Mask (s : list Z)                             (* -m *)
| Read                                          (* -r *)
| Write (s : list Z)                            (* -w *)
| Set_ (s : list Z) | SetBit (s : list Z)       (* -s, -S *)
| Clear (s : list Z) | ClearBit (s : list Z)    (* -c, -C *)
| IfTrue | IfFalse                              (* -t, -f *)
| Sleep (s : list Z)                            (* -u *)
| Debug | Core | Help                           (* -d, -o, -? *)
| Other.                                        (* -i, -I *)

(** An access to memory: where, how many octets, and what is written. *)
Inductive access := Load (a w : Z) | Store (a w n : Z).

Definition upd (m : Z -> Z) (a x : Z) : Z -> Z := fun b => if b =? a then x else m b.
Fixpoint load (w : nat) (m : Z -> Z) (a : Z) : Z :=
  match w with
  | O => 0
  | S w => m a + 256 * load w m (a + 1)
  end.
Fixpoint store (w : nat) (m : Z -> Z) (a n : Z) : Z -> Z :=
  match w with
  | O => m
  | S w => store w (upd m a (n mod 256)) (a + 1) (n / 256)
  end.

(** bin/memtool.c:146-154. The region that [base] is the start of, if there is one, is where
    it starts in physical memory and how long it is. *)
Record st := mkst {
  value : Z; mask : Z; address : Z; extent : Z; offset : Z; size : Z;
  base : option (Z * Z); mem : Z -> Z; out : list Z; bus : list access }.
Definition init (m : Z -> Z) : st := mkst 0 0 0 0 0 0 None m [] [].
Definition set_value v s := mkst v (mask s) (address s) (extent s) (offset s) (size s) (base s) (mem s) (out s) (bus s).
Definition set_mask v s := mkst (value s) v (address s) (extent s) (offset s) (size s) (base s) (mem s) (out s) (bus s).
Definition set_address v s := mkst (value s) (mask s) v (extent s) (offset s) (size s) (base s) (mem s) (out s) (bus s).
Definition set_extent v s := mkst (value s) (mask s) (address s) v (offset s) (size s) (base s) (mem s) (out s) (bus s).
Definition set_place w v s := mkst (value s) (mask s) (address s) (extent s) v w (base s) (mem s) (out s) (bus s).
Definition set_base b s := mkst (value s) (mask s) (address s) (extent s) (offset s) (size s) b (mem s) (out s) (bus s).
Definition set_mem m l s := mkst (value s) (mask s) (address s) (extent s) (offset s) (size s) (base s) m (out s) (bus s ++ l).
Definition add_out l s := mkst (value s) (mask s) (address s) (extent s) (offset s) (size s) (base s) (mem s) (out s ++ l) (bus s).

(** What there is to be done: bin/memtool.c:56-61. *)
Inductive op := OpC | OpS | Opc | Opr | Ops | Opw.

(** The highest shift of a one that is defined: that of int, to which the two narrower types
    are promoted, and those of the two wider types. *)
Definition shift_max (w : Z) : Z := if w <=? 2 then 30 else 8 * w - 1.

(** bin/memtool.c:44-67 OPERATE for the unsigned type of [w] octets at [a]. *)
Definition operate_type (w : Z) (a : Z) (o : op) (m0 : Z) (s : st) : option st :=
  let n := Z.to_nat w in
  let trunc := fun x => x mod 2 ^ (8 * w) in
  let _mask := trunc m0 in
  let _value := trunc (value s) in
  let datum := trunc (Z.shiftl 1 (value s)) in
  let old := load n (mem s) a in
  let put := fun x => set_mem (store n (mem s) a x) in
  match o with
  | OpC => if value s >? shift_max w then None else
      let x := trunc (Z.land old (Z.lnot datum)) in Some (set_value _value (put x [Load a w; Store a w x] s))
  | OpS => if value s >? shift_max w then None else
      let x := trunc (Z.lor (Z.land old (Z.lnot _mask)) datum) in Some (set_value _value (put x [Load a w; Store a w x] s))
  | Opc => let x := trunc (Z.land old (Z.lnot _value)) in Some (set_value _value (put x [Load a w; Store a w x] s))
  | Opr => Some (set_value old (add_out (number 10 old ++ [10]) (set_mem (mem s) [Load a w] s)))
  | Ops => let x := trunc (Z.lor (Z.land old (Z.lnot _mask)) _value) in Some (set_value _value (put x [Load a w; Store a w x] s))
  | Opw => Some (set_value _value (put _value [Store a w _value] s))
  end.

(** bin/memtool.c:69-118 operate. [map] is whether diminuto_map_map can map that many octets
    at that address. The flag is for failure. *)
Definition operate (map : Z -> Z -> bool) (o : op) (m0 : Z) (s : st) : option (st * bool) :=
  let b :=
    match base s with
    | Some b => Some b
    | None =>
        if extent s =? 0 then (if map (offset s) (size s) then Some (offset s, size s) else None)
        else (if map (address s) (extent s) then Some (address s, extent s) else None)
    end in
  match b with
  | None => Some (s, true)
  | Some (start, len) =>
      let s := set_base b s in
      let a := if extent s =? 0 then start else start + offset s in
      let w := size s in
      let* s :=
        if (w =? 1) || (w =? 2) || (w =? 4) || (w =? 8) then
          if (start <=? a) && (a + w <=? start + len) && (a mod w =? 0) then operate_type w a o m0 s else None
        else Some s in
      Some (if extent s =? 0 then set_base None s else s, false)
  end.

(** bin/memtool.c:165-309: one option. [diminuto_number] must take the whole of the argument.
    The flags are for error and for done. *)
Definition arg (t : list Z) (s : st) (k : st -> option (st * bool * bool)) : option (st * bool * bool) :=
  let '(v, next) := number_unsigned t in
  match next with
  | [] => k (set_value v s)
  | _ => Some (set_value v s, true, false)
  end.
Definition apply (map : Z -> Z -> bool) (frequency : Z) (o : flag) (s : st) : option (st * bool * bool) :=
  let act := fun o m0 s => let* r := operate map o m0 s in Some (fst r, snd r, false) in
  match o with
  | Width w t => arg t s (fun s => Some (set_place w (value s) s, false, false))
  | Region t => arg t s (fun s => Some (set_base None (set_address (value s) s), false, false))
  | ClearBit t => arg t s (act OpC 0)
  | Clear t => arg t s (act Opc 0)
  | Debug => Some (s, false, false)
  | IfFalse => Some (s, false, negb (value s =? 0))
  | Extent t => arg t s (fun s => Some (set_extent (value s) s, false, false))
  | Mask t => arg t s (fun s => Some (set_mask (value s) s, false, false))
  | Core => Some (s, false, false)
  | Read => act Opr 0 s
  | SetBit t => arg t s (fun s => act OpS (mask s) s)
  | Set_ t => arg t s (fun s => act Ops (mask s) s)
  | IfTrue => Some (s, false, value s =? 0)
  | Sleep t => arg t s (fun s => Some (set_value (u64 (value s * frequency) / 1000000) s, false, false))
  | Write t => arg t s (act Opw 0)
  | Help => Some (s, false, false)
  | Other => Some (s, true, false)
  end.

(** bin/memtool.c:163-330: the options in turn; and the exit status. *)
Fixpoint options (map : Z -> Z -> bool) (frequency : Z) (l : list flag) (s : st) : option (st * Z) :=
  match l with
  | [] => Some (s, 0)
  | o :: l' =>
      let* r := apply map frequency o s in
      let '(s, error, done) := r in
      if error then Some (s, 1) else if done then Some (s, 0) else options map frequency l' s
  end.
(** What is left of memory, what is printed, the accesses, and the exit status. *)
Definition memtool (map : Z -> Z -> bool) (frequency : Z) (l : list flag) (m : Z -> Z) : option ((Z -> Z) * list Z * list access * Z) :=
  let* r := options map frequency l (init m) in
  let '(s, status) := r in
  Some (mem s, out s, bus s, status).
