(* Model of RT/container/Pool.h and RT/container/Pool.cpp
   (RT = /repo/repos/plywood/src/runtime/ply-runtime).
   A cell holds a live item, the link of a freed item, or nothing. [None] as a result is a failed
   assertion, a bad memory access, or use of a dead item. Simplifications: u32(-1) as a link is [None]
   (no index reaches it, because of the overflow check in baseReserve); the byte offset
   index * itemSize does not wrap (pools below 4 GB); the reader count kept in debug builds is left out;
   std::sort is taken to sort. *)
From Verif Require Export Base ListUpd UtilModel.

Section Pool.
Context {A : Type}.

Inductive cell := Raw | Link (next : option nat) | Item (x : A).
Record pool := { items : list cell;            (* m_allocated cells *)
                 size : nat;
                 firstFree : option nat;
                 sortedFree : bool;
                 freeSize : nat }.

(** Pool.h:265-268 and the member initialisers, 28-32. *)
Definition empty_pool : pool :=
  {| items := []; size := 0; firstFree := None; sortedFree := true; freeSize := 0 |}.

(** Pool.h:270-276 [baseReserve]. *)
Definition baseReserve (p : pool) (newSize : Z) : option pool :=
  let n := Z.to_nat (roundUpPowerOf2_32 (Z.max newSize 8)) in
  if (n =? 0)%nat then None else
  Some {| items := firstn n (items p) ++ repeat Raw (n - length (items p));
          size := size p; firstFree := firstFree p; sortedFree := sortedFree p; freeSize := freeSize p |}.

(** Reading the link stored in a freed cell. *)
Definition link (p : pool) (i : nat) : option (option nat) :=
  match nth_error (items p) i with Some (Link n) => Some n | _ => None end.

(** Pool.h:278-291 [baseAlloc]. *)
Definition baseAlloc (p : pool) : option (pool * nat) :=
  match firstFree p with
  | Some i =>
    match link p i with
    | None => None
    | Some next =>
      match freeSize p with
      | O => None
      | S k =>
        if Bool.eqb (k =? 0)%nat (match next with None => true | _ => false end)
        then Some ({| items := items p; size := size p; firstFree := next;
                      sortedFree := sortedFree p; freeSize := k |}, i)
        else None
      end
    end
  | None =>
    match (if (length (items p) <=? size p)%nat then baseReserve p (u32 (Z.of_nat (size p) + 1)) else Some p) with
    | None => None
    | Some p => Some ({| items := items p; size := S (size p); firstFree := firstFree p;
                         sortedFree := sortedFree p; freeSize := freeSize p |}, size p)
    end
  end.

Definition with_items (p : pool) (c : list cell) : pool :=
  {| items := c; size := size p; firstFree := firstFree p; sortedFree := sortedFree p; freeSize := freeSize p |}.

(** Pool.h:346-355 [newItem]: placement-new over the allocated cell. *)
Definition newItem (p : pool) (x : A) : option (pool * nat) :=
  match baseAlloc p with
  | None => None
  | Some (p, i) =>
    match nth_error (items p) i with
    | Some (Item _) | None => None
    | Some _ => Some (with_items p (upd (items p) i (Item x)), i)
    end
  end.

(** Pool.h:293-300 [baseFree]. *)
Definition baseFree (p : pool) (i : nat) : option pool :=
  if (i <? size p)%nat then
    if Z.of_nat (freeSize p) <? 2 ^ 31 - 1 then
      Some {| items := upd (items p) i (Link (firstFree p)); size := size p; firstFree := Some i;
              sortedFree := false; freeSize := S (freeSize p) |}
    else None
  else None.

(** Pool.h:357-366 [delItem]: destroys the item, then frees the cell. *)
Definition delItem (p : pool) (i : nat) : option pool :=
  match nth_error (items p) i with
  | Some (Item _) => baseFree p i
  | _ => None
  end.

(** Pool.h:368-373 [get], then reading through the pointer. *)
Definition get (p : pool) (i : nat) : option A :=
  if (i <? size p)%nat then
    match nth_error (items p) i with Some (Item x) => Some x | _ => None end
  else None.
(** Pool.h:368-373 [get], then assigning through the pointer. *)
Definition set (p : pool) (i : nat) (x : A) : option pool :=
  match get p i with
  | Some _ => Some (with_items p (upd (items p) i (Item x)))
  | None => None
  end.

(** Pool.cpp:21-27: the loop that gathers the free list into a buffer of [room] entries. *)
Fixpoint gather (p : pool) (room : nat) (f : option nat) : option (list nat) :=
  match f with
  | None => Some []
  | Some i =>
    match room with
    | O => None
    | S room =>
      match link p i with
      | None => None
      | Some n => match gather p room n with Some r => Some (i :: r) | None => None end
      end
    end
  end.

(** std::sort on 32-bit integers. *)
Fixpoint ins (x : nat) (l : list nat) : list nat :=
  match l with [] => [x] | y :: r => if (x <=? y)%nat then x :: l else y :: ins x r end.
Fixpoint std_sort (l : list nat) : list nat :=
  match l with [] => [] | x :: r => ins x (std_sort r) end.

(** Pool.cpp:30-37: relinking in increasing order. *)
Fixpoint relink (c : list cell) (prev : nat) (rest : list nat) : list cell :=
  match rest with
  | [] => upd c prev (Link None)
  | n :: rest => relink (upd c prev (Link (Some n))) n rest
  end.

(** Pool.cpp:12-40 [baseSortFreeList]. *)
Definition sortFreeList (p : pool) : option pool :=
  if sortedFree p then Some p else
  match firstFree p with
  | None => Some p
  | Some _ =>
    if (freeSize p =? 0)%nat then None else
    match gather p (freeSize p) (firstFree p) with
    | None => None
    | Some l =>
      if (length l =? freeSize p)%nat then
        match std_sort l with
        | [] => None
        | f :: rest =>
          Some {| items := relink (items p) f rest; size := size p; firstFree := Some f;
                  sortedFree := true; freeSize := freeSize p |}
        end
      else None
    end
  end.

(** Pool.h:497-507 [operator++] after the initial increment: skips freed cells. *)
Fixpoint skipFree (fuel : nat) (p : pool) (i : nat) (nf : option nat) : option (nat * option nat) :=
  if (i <? size p)%nat then
    match nf with
    | None => Some (i, nf)
    | Some n =>
      if (n <? i)%nat then None                 (* the assertion *)
      else if (i <? n)%nat then Some (i, nf)
      else match fuel with
           | O => None
           | S fuel => match link p i with None => None | Some nf => skipFree fuel p (S i) nf end
           end
    end
  else Some (i, nf).

(** A range-for over the pool: Pool.h:393-398 [begin], 497-507 [operator++], 485-488 [operator*]. *)
Fixpoint iterFrom (fuel : nat) (p : pool) (i : nat) (nf : option nat) : option (list (nat * A)) :=
  match skipFree (S (size p)) p i nf with
  | None => None
  | Some (i, nf) =>
    if (i =? size p)%nat then Some [] else
    match fuel with
    | O => None
    | S fuel =>
      match get p i with
      | None => None
      | Some x => match iterFrom fuel p (S i) nf with None => None | Some r => Some ((i, x) :: r) end
      end
    end
  end.
Definition iterate (p : pool) : option (pool * list (nat * A)) :=
  match sortFreeList p with
  | None => None
  | Some p => match iterFrom (size p) p 0 (firstFree p) with None => None | Some l => Some (p, l) end
  end.

(** Pool.h:317-335 [clear]: the nested loops that destroy the live items, in the order destroyed. *)
Fixpoint destroyTo (k : nat) (p : pool) (i : nat) : option (list (nat * A)) :=
  match k with
  | O => Some []
  | S k => match nth_error (items p) i with
           | Some (Item x) => match destroyTo k p (S i) with Some r => Some ((i, x) :: r) | None => None end
           | _ => None
           end
  end.
Fixpoint clearFrom (fuel : nat) (p : pool) (i : nat) (skipIndex : option nat) : option (list (nat * A)) :=
  let skip := match skipIndex with None => size p | Some s => s end in
  match destroyTo (skip - i) p i with
  | None => None
  | Some l =>
    let i := Nat.max i skip in
    if (i =? size p)%nat then Some l else
    match fuel with
    | O => None
    | S fuel =>
      match link p skip with
      | None => None
      | Some n => match clearFrom fuel p (S i) n with Some r => Some (l ++ r) | None => None end
      end
    end
  end.
Definition clear (p : pool) : option (pool * list (nat * A)) :=
  match sortFreeList p with
  | None => None
  | Some p => match clearFrom (size p) p 0 (firstFree p) with
              | Some l => Some (empty_pool, l)
              | None => None
              end
  end.

Inductive op := New (x : A) | Del (i : nat) | Get (i : nat) | Set_ (i : nat) (x : A) | Iterate | Clear.
Inductive out := Index (i : nat) | Value (x : A) | Values (l : list (nat * A)) | Done.

Definition step (p : pool) (o : op) : option (pool * out) :=
  match o with
  | New x => match newItem p x with Some (p, i) => Some (p, Index i) | None => None end
  | Del i => match delItem p i with Some p => Some (p, Done) | None => None end
  | Get i => match get p i with Some x => Some (p, Value x) | None => None end
  | Set_ i x => match set p i x with Some p => Some (p, Done) | None => None end
  | Iterate => match iterate p with Some (p, l) => Some (p, Values l) | None => None end
  | Clear => match clear p with Some (p, l) => Some (p, Values l) | None => None end
  end.
Fixpoint run (p : pool) (ops : list op) : option (pool * list out) :=
  match ops with
  | [] => Some (p, [])
  | o :: r =>
    match step p o with
    | None => None
    | Some (p, y) => match run p r with None => None | Some (p, ys) => Some (p, y :: ys) end
    end
  end.
End Pool.
