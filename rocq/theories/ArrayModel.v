(* Model of RT/container/Array.h and RT/container/details/BaseArray.cpp
   (RT = /repo/repos/plywood/src/runtime/ply-runtime).
   The memory block is a list of cells, as many as are allocated; a cell holds a live object or
   nothing. [None] as a result is a failed assertion, an access outside the block, constructing over or
   copying over a live object (a leak), or destroying a dead one. *)
From Verif Require Export Base ListUpd UtilModel.

Section Arr.
Context {A : Type}.
Variable dflt : A.     (* the default-constructed item *)

Record arr := { cells : list (option A); num : nat }.

(** Array.h:62-65: the empty array. *)
Definition empty_arr : arr := {| cells := []; num := 0 |}.

Definition zn (n : nat) : Z := Z.of_nat n.

(** [PLY_HEAP.realloc] of the block to [n] cells: keeps what fits. *)
Definition realloc (c : list (option A)) (n : nat) : list (option A) :=
  firstn n c ++ repeat None (n - length c).

(** BaseArray.cpp:31-36 [reserve], for a 32-bit count. *)
Definition reserve (c : list (option A)) (want : Z) : list (option A) :=
  if zlen c <? want then realloc c (Z.to_nat (roundUpPowerOf2_32 want)) else c.

Definition in_block (c : list (option A)) (pos n : nat) : bool := (pos + n <=? length c)%nat.
Definition range (c : list (option A)) (pos n : nat) := firstn n (skipn pos c).
Definition put (c : list (option A)) (pos : nat) (v : list (option A)) :=
  firstn pos c ++ v ++ skipn (pos + length v) c.
Definition live (o : option A) : bool := match o with Some _ => true | None => false end.

(** subst::destructArray. *)
Definition destructArray (c : list (option A)) (pos n : nat) : option (list (option A)) :=
  if in_block c pos n && forallb live (range c pos n) then Some (put c pos (repeat None n)) else None.
(** subst::constructArray and the copying and moving variants. *)
Definition constructArray (c : list (option A)) (pos : nat) (v : list A) : option (list (option A)) :=
  if in_block c pos (length v) && negb (existsb live (range c pos (length v)))
  then Some (put c pos (map Some v)) else None.
(** memmove/memcpy of [n] cells: the objects are relocated, so the source cells no longer own them. *)
Definition move_cells (c : list (option A)) (dst src n : nat) : option (list (option A)) :=
  if in_block c src n && in_block c dst n then
    let v := range c src n in
    let c := put c src (repeat None n) in
    if existsb live (range c dst n) then None else Some (put c dst v)
  else None.

Definition obind {X Y} (o : option X) (f : X -> option Y) : option Y :=
  match o with Some x => f x | None => None end.

(** Array.h:354-382 [append]. *)
Definition append (a : arr) (x : A) : option arr :=
  let c := if (length (cells a) <=? num a)%nat then reserve (cells a) (u32 (zn (num a) + 1)) else cells a in
  obind (constructArray c (num a) [x]) (fun c => Some {| cells := c; num := S (num a) |}).
(** Array.h:402-416 [extend]; [moveExtend] (423-429) differs only in how the items are copied. *)
Definition extend (a : arr) (v : list A) : option arr :=
  let c := reserve (cells a) (u32 (zn (num a) + zlen v)) in
  obind (constructArray c (num a) v) (fun c => Some {| cells := c; num := num a + length v |}).
(** Array.h:329-338 [resize]. *)
Definition resize (a : arr) (n : nat) : option arr :=
  obind (if (n <? num a)%nat then destructArray (cells a) n (num a - n) else Some (cells a)) (fun c =>
  let c := reserve c (zn n) in
  obind (if (num a <? n)%nat then constructArray c (num a) (repeat dflt (n - num a)) else Some c) (fun c =>
  Some {| cells := c; num := n |})).
(** Array.h:436-439 [pop]. *)
Definition pop (a : arr) (count : nat) : option arr :=
  if (count <=? num a)%nat then resize a (num a - count) else None.
(** Array.h:445-454 [insert]. *)
Definition insert (a : arr) (pos count : nat) : option arr :=
  if (pos <=? num a)%nat then
    let c := reserve (cells a) (u32 (zn (num a) + zn count)) in
    obind (move_cells c (pos + count) pos (num a - pos)) (fun c =>
    obind (constructArray c pos (repeat dflt count)) (fun c =>
    Some {| cells := c; num := num a + count |}))
  else None.
(** Array.h:461-468 [erase]; the sum in the assertion is 32-bit. *)
Definition erase (a : arr) (pos count : nat) : option arr :=
  if u32 (zn pos + zn count) <=? zn (num a) then
    obind (destructArray (cells a) pos count) (fun c =>
    obind (move_cells c pos (pos + count) (num a - (pos + count))) (fun c =>
    Some {| cells := c; num := num a - count |}))
  else None.
(** Array.h:480-486 [eraseQuick(pos)]. *)
Definition eraseQuick1 (a : arr) (pos : nat) : option arr :=
  if (pos <? num a)%nat then
    obind (destructArray (cells a) pos 1) (fun c =>
    obind (move_cells c pos (num a - 1) 1) (fun c =>
    Some {| cells := c; num := num a - 1 |}))
  else None.
(** Array.h:487-494 [eraseQuick(pos, count)]. *)
Definition eraseQuickN (a : arr) (pos count : nat) : option arr :=
  if u32 (zn pos + zn count) <=? zn (num a) then
    obind (destructArray (cells a) pos count) (fun c =>
    obind (move_cells c pos (num a - count) count) (fun c =>
    Some {| cells := c; num := num a - count |}))
  else None.
(** Array.h:343-345, BaseArray.cpp:42-45 [truncate]. *)
Definition truncate (a : arr) : option arr :=
  Some {| cells := realloc (cells a) (num a); num := num a |}.
(** Array.h:306-312 [clear]. *)
Definition clear (a : arr) : option arr :=
  obind (destructArray (cells a) 0 (num a)) (fun _ => Some empty_arr).
(** Array.h:320-322 [reserve]. *)
Definition reserveOp (a : arr) (n : nat) : option arr :=
  Some {| cells := reserve (cells a) (zn n); num := num a |}.
(** Array.h:206-217 [operator[]]: reading, and assigning through the reference. *)
Definition get (a : arr) (i : nat) : option A :=
  if (i <? num a)%nat then match nth_error (cells a) i with Some (Some x) => Some x | _ => None end else None.
Definition assign (a : arr) (i : nat) (x : A) : option arr :=
  if (i <? num a)%nat then
    match nth_error (cells a) i with
    | Some (Some _) => Some {| cells := upd (cells a) i (Some x); num := num a |}
    | _ => None
    end
  else None.

Inductive op :=
| Append (x : A) | Extend (v : list A) | Resize (n : nat) | Pop (n : nat) | Insert (pos n : nat)
| Erase (pos n : nat) | EraseQuick (pos : nat) | EraseQuickN (pos n : nat) | Truncate | Clear
| Reserve (n : nat) | Assign (i : nat) (x : A).

Definition step (a : arr) (o : op) : option arr :=
  match o with
  | Append x => append a x | Extend v => extend a v | Resize n => resize a n | Pop n => pop a n
  | Insert p n => insert a p n | Erase p n => erase a p n | EraseQuick p => eraseQuick1 a p
  | EraseQuickN p n => eraseQuickN a p n | Truncate => truncate a | Clear => clear a
  | Reserve n => reserveOp a n | Assign i x => assign a i x
  end.
Fixpoint run (a : arr) (ops : list op) : option arr :=
  match ops with [] => Some a | o :: r => obind (step a o) (fun a => run a r) end.
End Arr.
