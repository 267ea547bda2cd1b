(** Model of drv/diminuto_mmdriver.c, drv/diminuto_kernel_datum.c and
    drv/diminuto_kernel_map.c: the driver for memory that is mapped, used by any number of
    threads, and the mapping of that memory. Memory is octets. Results are errno numbers
    negated. *)

From Coq Require Import ZArith List Bool.
From Verif Require Import CInt CUtil.
Import ListNotations.
Local Open Scope Z_scope.

Definition EPERM := 1.
Definition EINTR := 4.
Definition EIO := 5.
Definition ENOMEM := 12.
Definition EFAULT := 14.
Definition EINVAL := 22.

Definition memory := Z -> Z.

(** A value, inc/com/diag/diminuto/diminuto_datum.h:31-36, is a union of the widths: its
    eight octets in memory. What is read or written of it is the first of them, whatever the
    byte order, and bitwise operations are those on octets. *)
Definition datum := list Z.

(** inc/com/diag/diminuto/diminuto_datum.h:42-49. *)
Definition valid (width : Z) : bool := (width =? 1) || (width =? 2) || (width =? 4) || (width =? 8).
Definition misaligned (address width : Z) : bool := negb (Z.land address (width - 1) =? 0).

Fixpoint load (m : memory) (address : Z) (n : nat) : list Z :=
  match n with O => [] | S n => m address :: load m (address + 1) n end.
Fixpoint store (m : memory) (address : Z) (l : list Z) : memory :=
  match l with [] => m | x :: l => store (fun a => if a =? address then x else m a) (address + 1) l end.

(** diminuto_kernel_get(), drv/diminuto_kernel_datum.c:41-60: the value, or none. *)
Definition kernel_get (m : memory) (address width : Z) (d : datum) : option datum :=
  if negb (valid width) then None
  else if misaligned address width then None
  else Some (load m address (Z.to_nat width) ++ skipn (Z.to_nat width) d).
(** diminuto_kernel_put(), drv/diminuto_kernel_datum.c:63-82. *)
Definition kernel_put (m : memory) (address width : Z) (d : datum) : option memory :=
  if negb (valid width) then None
  else if misaligned address width then None
  else Some (store m address (firstn (Z.to_nat width) d)).

(** inc/com/diag/diminuto/diminuto_mmdriver.h:62-67. *)
Record op := mkop { offset : Z; width : Z; value : datum; mask : datum }.

(** inc/com/diag/diminuto/diminuto_mmdriver.h:78-99; and any other command, with or
    without _IOC_WRITE in its direction. *)
Inductive command := READ | WRITE | SET | CLEAR | OTHER (writes : bool).
(** _IOC_DIR(cmd) & _IOC_WRITE, and _IOC_READ of the four. *)
Definition dir_write (c : command) : bool := match c with OTHER w => w | _ => true end.
Definition dir_read (c : command) : bool := match c with READ => true | _ => false end.

(** The operations on octets of MMDRIVER_OPERATION_SET, drv/diminuto_mmdriver.c:171, and
    MMDRIVER_OPERATION_CLEAR, line 207: [old] is what was there, [new] what was given. *)
Definition lnot8 (x : Z) : Z := Z.lxor x 255.
Fixpoint set_octets (old new mask : list Z) : list Z :=
  match old, new, mask with
  | o :: old, n :: new, m :: mask => Z.lor (Z.land o (lnot8 m)) n :: set_octets old new mask
  | _, _, _ => new
  end.
Fixpoint clear_octets (old new : list Z) : list Z :=
  match old, new with
  | o :: old, n :: new => Z.land o (lnot8 n) :: clear_octets old new
  | _, _ => new
  end.

(** A call of ioctl(2): the command, the operation, and whether it can be copied from and
    to the user's memory. *)
Record call := mkcall { cmd : command; arg : op; readable : bool; writable : bool }.

(** A thread: outside; holding the semaphore; with what was read, and what to write
    now, in the operations that modify; about to leave with rc and what the user has then;
    or lost, if memory was used that nothing was put in. *)
Inductive thread :=
  | Idle (calls : list call)
  | Held (c : call) (calls : list call)
  | Modify (c : call) (new : datum) (calls : list call)
  | Leave (c : call) (rc : Z) (user : op) (calls : list call)
  | Lost.

Record system := mksystem {
  holder : option nat;
  mem : memory;
  threads : list thread;
  returns : list (nat * call * Z * op)
}.

Fixpoint replace (i : nat) (t : thread) (l : list thread) : list thread :=
  match i, l with
  | _, [] => []
  | O, _ :: l => t :: l
  | S i, u :: l => u :: replace i t l
  end.

Section Driver.
(** basep and length, drv/diminuto_mmdriver.c:134-136. *)
Variables base length : Z.

(** What is done with the semaphore held, drv/diminuto_mmdriver.c:299-337, as far as the
    first access to the memory: the next state of the thread, and of the memory. *)
Definition perform (m : memory) (c : call) (calls : list call) : thread * memory :=
  if dir_write (cmd c) && negb (readable c) then (Leave c (- EFAULT) (arg c) calls, m)
  else if negb (dir_write (cmd c)) then (Lost, m)
  else
    let o := arg c in
    if length <? offset o then (Leave c (- EINVAL) o calls, m)
    else
      let pointer := base + offset o in
      match cmd c with
      | READ =>
          let '(rc, o') := match kernel_get m pointer (width o) (value o) with
                           | Some d => (0, mkop (offset o) (width o) d (mask o))
                           | None => (- EINVAL, o)
                           end in
          (if writable c then Leave c rc o' calls else Leave c (- EFAULT) o calls, m)
      | WRITE =>
          match kernel_put m pointer (width o) (value o) with
          | Some m' => (Leave c 0 o calls, m')
          | None => (Leave c (- EINVAL) o calls, m)
          end
      | SET =>
          match kernel_get m pointer (width o) (value o) with
          | Some d => (Modify c (set_octets (firstn (Z.to_nat (width o)) d) (value o) (mask o)) calls, m)
          | None => (Leave c (- EINVAL) o calls, m)
          end
      | CLEAR =>
          match kernel_get m pointer (width o) (value o) with
          | Some d => (Modify c (clear_octets (firstn (Z.to_nat (width o)) d) (value o)) calls, m)
          | None => (Leave c (- EINVAL) o calls, m)
          end
      | OTHER _ => (Leave c (- EINVAL) o calls, m)
      end.

(** A step of a thread: down_interruptible(), lines 291-295, which may be [interrupted]; the
    first access; the second, line 198 and line 234; up(), line 339. *)
Definition step (s : system) (i : nat) (interrupted : bool) : system :=
  match nth_error (threads s) i with
  | Some (Idle (c :: calls)) =>
      if interrupted then mksystem (holder s) (mem s) (replace i (Idle calls) (threads s)) (returns s ++ [(i, c, - EINTR, arg c)])
      else match holder s with
           | Some _ => s
           | None => mksystem (Some i) (mem s) (replace i (Held c calls) (threads s)) (returns s)
           end
  | Some (Held c calls) =>
      let '(t, m) := perform (mem s) c calls in
      mksystem (holder s) m (replace i t (threads s)) (returns s)
  | Some (Modify c new calls) =>
      let o := arg c in
      match kernel_put (mem s) (base + offset o) (width o) new with
      | Some m => mksystem (holder s) m (replace i (Leave c 0 o calls) (threads s)) (returns s)
      | None => mksystem (holder s) (mem s) (replace i (Leave c (- EINVAL) o calls) (threads s)) (returns s)
      end
  | Some (Leave c rc user calls) =>
      mksystem None (mem s) (replace i (Idle calls) (threads s)) (returns s ++ [(i, c, rc, user)])
  | _ => s
  end.
Fixpoint run (s : system) (schedule : list (nat * bool)) : system :=
  match schedule with
  | [] => s
  | (i, interrupted) :: schedule => run (step s i interrupted) schedule
  end.
Definition start (m : memory) (calls : list (list call)) : system := mksystem None m (map Idle calls) [].
End Driver.

(** * Mapping *)

(** The regions that are reserved, each with its first and last address, as struct resource
    has them; what is mapped: where to, and from where, and how much. *)
Record kernel := mkkernel { regions : list (Z * Z); mappings : list (Z * Z * Z) }.

(** request_mem_region(9) and release_mem_region(9): a region is reserved unless it
    overlaps one that is; one is released only if it is just that. *)
Definition overlaps (a b : Z * Z) : bool := (fst a <=? snd b) && (fst b <=? snd a).
Definition request_mem_region (k : kernel) (start length : Z) : option ((Z * Z) * kernel) :=
  let r := (start, start + length - 1) in
  if existsb (overlaps r) (regions k) then None else Some (r, mkkernel (r :: regions k) (mappings k)).
Definition same (a b : Z * Z) : bool := (fst a =? fst b) && (snd a =? snd b).
Fixpoint remove_region (r : Z * Z) (l : list (Z * Z)) : list (Z * Z) :=
  match l with [] => [] | x :: l => if same r x then l else x :: remove_region r l end.
Definition release_mem_region (k : kernel) (start length : Z) : kernel :=
  mkkernel (remove_region (start, start + length - 1) (regions k)) (mappings k).

(** ioremap(9) and iounmap(9); [page] is where it is mapped to, if it can be. *)
Definition ioremap (k : kernel) (page : option Z) (address size : Z) : option (Z * kernel) :=
  match page with Some v => Some (v, mkkernel (regions k) ((v, address, size) :: mappings k)) | None => None end.
Definition iounmap (k : kernel) (v : Z) : kernel :=
  mkkernel (regions k) (filter (fun '(w, _, _) => negb (w =? v)) (mappings k)).

(** diminuto_kernel_map(), drv/diminuto_kernel_map.c:21-85, with all of the pointers but
    [regionpp] given: rc, the region, the base and the page. [PAGE_SIZE] is a parameter. *)
Definition kernel_map (PAGE_SIZE : Z) (page : option Z) (k : kernel) (start length : Z) (exclusive align : bool)
  : Z * option (Z * Z) * Z * Z * kernel :=
  let offset := if align then start mod PAGE_SIZE else 0 in
  let address := start - offset in
  let size := length + offset in
  match (if exclusive then match request_mem_region k start length with Some (r, k) => Some (Some r, k) | None => None end else Some (None, k)) with
  | None => (- EPERM, None, 0, 0, k)
  | Some (region, k) =>
      match ioremap k page address size with
      | None =>
          (- ENOMEM, region, 0, 0,
           match region with Some (a, b) => release_mem_region k a (b - a) | None => k end)
      | Some (v, k) => (0, region, v + offset, v, k)
      end
  end.

(** diminuto_kernel_unmap(), drv/diminuto_kernel_map.c:88-102. *)
Definition kernel_unmap (k : kernel) (page : Z) (region : option (Z * Z)) : kernel :=
  let k := if page =? 0 then k else iounmap k page in
  match region with Some (a, b) => release_mem_region k a (b - a) | None => k end.

(** * Loading the module *)

(** What the driver may have: mmdriver_init(), drv/diminuto_mmdriver.c:508-567, and
    mmdriver_exit(), lines 569-584. unregister_chrdev() of what is not registered does
    nothing. *)
Record module := mkmodule { mapped : bool; chrdev : bool; miscdev : bool; procfs : bool }.
Definition module_init (major : Z) (map_ok register_ok proc_ok : bool) : bool * module :=
  if negb map_ok then (false, mkmodule false false false false)
  else if negb register_ok then (false, mkmodule false false false false)
  else
    let misc := major =? 0 in
    if negb proc_ok then (false, mkmodule false false misc false)
    else (true, mkmodule true (negb misc) misc true).
Definition module_exit (major : Z) (m : module) : module :=
  let misc := major =? 0 in
  mkmodule false (chrdev m && misc) (miscdev m && negb misc) false.
