(* Model of RT/container/Sequence.h, RT/container/Sequence.cpp and the parts of RT/container/BlockList.h and
   BlockList.cpp they use (RT = /repo/repos/plywood/src/runtime/ply-runtime).
   [None] is a failed assertion or undefined behaviour. Simplifications: the used bytes of a block are a
   list of whole items, so a position in a block is a number of items; a block is known by its position
   from the head (0 is the head), so two references have the same byte address when both numbers agree (a
   footer lies between the bytes of two blocks); startOffset is left out, no code sets it (BlockList.h:29).
   Heap allocation does not fail. *)
From Verif Require Export Base ListUpd.

Section Sequence.
(** sizeof(T) and BlockList::DefaultBlockSize (BlockList.h:17). *)
Context {T : Type} (sz blk : Z).

(** BlockList.h:25-32: the items, blockSize and fileOffset. *)
Record block := mkb { bitems : list T; bsize : Z; boff : Z }.
Definition used (b : block) : Z := sz * zlen (bitems b).
(** BlockList.h:61-63. *)
Definition unused (b : block) : Z := bsize b - used b.

(** A sequence is its blocks, the tail block first. *)
Definition seqn := list block.

(** BlockList.cpp:47-57. *)
Definition createBlock (n off : Z) : option block := if 100 <? n then Some (mkb [] n off) else None.
(** BlockList.cpp:67-74. *)
Definition appendBlock (q : seqn) (n : Z) : option seqn :=
  match q with
  | [] => None
  | t :: _ => match createBlock n (u64 (boff t + used t)) with Some b => Some (b :: q) | None => None end
  end.

(** Sequence.h:128. *)
Definition create : option seqn := match createBlock blk 0 with Some b => Some [b] | None => None end.

(** Sequence.h:199-204 and 214-219, with Sequence.cpp:26-29: make room for one item. *)
Definition beginWrite (q : seqn) : option seqn :=
  match q with
  | [] => None
  | t :: _ => if unused t <? sz then appendBlock q (Z.max blk sz) else Some q
  end.
(** Sequence.h:226-229, after constructing [xs]. *)
Definition endWrite (q : seqn) (xs : list T) : option seqn :=
  match q with
  | [] => None
  | t :: q => if sz * zlen xs <=? unused t then Some (mkb (bitems t ++ xs) (bsize t) (boff t) :: q) else None
  end.
(** Sequence.h:240-258. *)
Definition append (q : seqn) (x : T) : option seqn :=
  match beginWrite q with Some q => endWrite q [x] | None => None end.
(** The loop of the documentation (Sequence.h:193-197): fill the view that beginWriteViewNoConstruct returns,
    until all of [xs] is written. *)
Fixpoint appendViews (fuel : nat) (q : seqn) (xs : list T) : option seqn :=
  match xs with
  | [] => Some q
  | _ =>
    match fuel, beginWrite q with
    | S fuel, Some (t :: q) =>
      let k := Z.to_nat (unused t / sz) in
      match endWrite (t :: q) (firstn k xs) with Some q => appendViews fuel q (skipn k xs) | None => None end
    | _, _ => None
    end
  end.

(** Sequence.cpp:31-50; [n] is in bytes. Second result: the items destructed. *)
Fixpoint popLoop (q : seqn) (n : Z) : option (seqn * list T) :=
  match q with
  | [] => None
  | t :: q' =>
    if 0 <? n then
      let pop := Z.min n (used t) in
      if 0 <? pop then
        let keep := Z.to_nat ((used t - pop) / sz) in
        let t' := mkb (firstn keep (bitems t)) (bsize t) (boff t) in
        let gone := skipn keep (bitems t) in
        if 0 <? used t' then if n - pop =? 0 then Some (t' :: q', gone) else None
        else match q' with
             | [] => Some ([t'], gone)
             | _ => match popLoop q' (n - pop) with Some (q, d) => Some (q, gone ++ d) | None => None end
             end
      else None
    else Some (q, [])
  end.
(** Sequence.h:266-268: the product is a u32. *)
Definition popTail (q : seqn) (n : Z) : option (seqn * list T) := popLoop q (u32 (n * sz)).

(** BlockList.h:74-101: a block and a byte address; here the block that owns the address, and the position. *)
Record wref := mkw { wblock : nat; wowner : nat; wpos : nat }.
(** The blocks from the head on, and block [i]. *)
Definition fwd (q : seqn) : list block := rev q.
Definition blockAt (q : seqn) (i : nat) : option block := nth_error (fwd q) i.
Definition begin (q : seqn) : wref := mkw 0 0 0.
(** Sequence.h:312-314. *)
Definition end_ (q : seqn) : wref :=
  let i := (length q - 1)%nat in mkw i i (match q with t :: _ => length (bitems t) | [] => O end).
(** Sequence.h:92-94: byte addresses are compared. *)
Definition differs (a b : wref) : bool := negb ((wowner a =? wowner b)%nat && (wpos a =? wpos b)%nat).
(** Sequence.h:59-63. *)
Definition deref (q : seqn) (r : wref) : option T :=
  if (wblock r =? wowner r)%nat then match blockAt q (wblock r) with Some b => nth_error (bitems b) (wpos r) | None => None end
  else None.
(** BlockList.cpp:93-100. *)
Definition jumpToNext (q : seqn) (r : wref) : wref :=
  match blockAt q (S (wblock r)) with Some _ => mkw (S (wblock r)) (S (wblock r)) 0 | None => r end.
(** Sequence.h:69-82 and 98-100 (Sequence.cpp:71-86), the move. *)
Definition incr (q : seqn) (r : wref) : option wref :=
  if (wblock r =? wowner r)%nat then
    match blockAt q (wblock r) with
    | None => None
    | Some b =>
      if (wpos r <? length (bitems b))%nat then
        let r' := mkw (wblock r) (wowner r) (S (wpos r)) in
        Some (if (S (wpos r) =? length (bitems b))%nat then jumpToNext q r' else r')
      else None
    end
  else None.
(** Sequence.h:83-91, with BlockList.cpp:102-109. *)
Definition decr (q : seqn) (r : wref) : option wref :=
  if (wblock r =? wowner r)%nat then
    match wpos r with
    | S p => Some (mkw (wblock r) (wowner r) p)
    | O => match wblock r with
           | O => None
           | S i => match blockAt q i with
                    | Some b => match length (bitems b) with S p => Some (mkw i i p) | O => None end
                    | None => None
                    end
           end
    end
  else None.
(** BlockList.h:94-99. *)
Definition normalized (q : seqn) (r : wref) : wref :=
  match blockAt q (wblock r), blockAt q (S (wblock r)) with
  | Some b, Some _ =>
    if (wowner r =? wblock r)%nat && (wpos r =? length (bitems b))%nat then mkw (S (wblock r)) (wblock r) 0 else r
  | _, _ => r
  end.

(** Sequence.cpp:52-60. *)
Definition truncate (q : seqn) (r : wref) : option seqn :=
  if (wblock r =? wowner r)%nat && (wblock r <? length q)%nat then
    match skipn (length q - 1 - wblock r) q with
    | [] => None
    | b :: prevs =>
      if (wpos r =? 0)%nat && negb (match prevs with [] => true | _ => false end) then Some prevs
      else if (wpos r <=? length (bitems b))%nat then Some (mkb (firstn (wpos r) (bitems b)) (bsize b) (boff b) :: prevs)
      else None
    end
  else None.

(** Sequence.cpp:62-69 and Sequence.h:182-185. *)
Definition totalBytes (q : seqn) : Z := fold_left (fun n b => u32 (n + used b)) (fwd q) 0.
Definition numItems (q : seqn) : Z := totalBytes q / sz.
(** Sequence.h:178-181. *)
Definition isEmpty (q : seqn) : option bool := match fwd q with h :: _ => Some (used h =? 0) | [] => None end.
(** Sequence.h:163-172. *)
Definition head (q : seqn) : option T := match fwd q with h :: _ => hd_error (bitems h) | [] => None end.
Definition tail (q : seqn) : option T := match q with t :: _ => hd_error (rev (bitems t)) | [] => None end.

(** for (T& x : seq). *)
Fixpoint iter (fuel : nat) (q : seqn) (r : wref) : option (list T) :=
  if differs r (end_ q) then
    match fuel with
    | O => None
    | S fuel =>
      match deref q r, incr q r with
      | Some x, Some r => option_map (cons x) (iter fuel q r)
      | _, _ => None
      end
    end
  else Some [].
(** From end() back to begin() with operator--. *)
Fixpoint iterBack (fuel : nat) (q : seqn) (r : wref) : option (list T) :=
  if differs r (begin q) then
    match fuel with
    | O => None
    | S fuel =>
      match decr q r with
      | None => None
      | Some r => match deref q r with Some x => option_map (cons x) (iterBack fuel q r) | None => None end
      end
    end
  else Some [].
(** [j] times operator++ from a reference. *)
Fixpoint advance (j : nat) (q : seqn) (r : wref) : option wref :=
  match j with O => Some r | S j => match incr q r with Some r => advance j q r | None => None end end.
(** Sequence.h:40-53: beginRead, use of the whole view and endRead, until the view is empty. *)
Fixpoint readViews (fuel : nat) (q : seqn) (r : wref) : option (list T) :=
  match fuel, blockAt q (wblock r) with
  | S fuel, Some b =>
    let r := if (length (bitems b) - wpos r =? 0)%nat then jumpToNext q r else r in
    match blockAt q (wblock r) with
    | None => None
    | Some b =>
      match skipn (wpos r) (bitems b) with
      | [] => Some []
      | v => option_map (app v) (readViews fuel q (mkw (wblock r) (wowner r) (wpos r + length v)))
      end
    end
  | _, _ => None
  end.

(** BlockList.cpp:32-42 [weakRefToNext]: where reading goes on in the next block [b'], in items. *)
Definition nextStart (b b' : block) : option nat :=
  let delta := boff b' - boff b in
  if (0 <=? delta) && (delta <? 2 ^ 32) && (delta <=? used b) then
    let p := Z.to_nat ((used b - delta) / sz) in
    if (p <=? length (bitems b'))%nat then Some p else None
  else None.
(** The views of iterateOverViews (BlockList.h:136-165) with no end. *)
Fixpoint views (b : block) (p : nat) (rest : list block) : option (list (list T)) :=
  option_map (cons (skipn p (bitems b)))
    (match rest with
     | [] => Some []
     | b' :: rest => match nextStart b b' with Some p' => views b' p' rest | None => None end
     end).
(** BlockList.cpp:111-141 and Sequence.h:292-297. *)
Definition moveToArray (q : seqn) : option (list T) :=
  match fwd q with
  | [] => None
  | [b] => Some (bitems b)
  | b :: rest =>
    match views b 0 rest with
    | None => None
    | Some vs => if sz * zlen (concat vs) <? 2 ^ 32 then Some (concat vs) else None
    end
  end.

(** Sequence.cpp:11-24: the items destructed. *)
Definition destruct_ (q : seqn) : list T := concat (map bitems (fwd q)).

Inductive op := Append (x : T) | AppendViews (xs : list T) | Pop (n : nat) | Mark | TruncateToMark | TruncateAt (j : nat)
              | Head | Tail | IsEmpty | Count | All | Backwards | Views | MoveToArray | Clear.
Inductive out := Done | Item (x : T) | Flag (b : bool) | Num (n : Z) | Items (l : list T) | Moved (l : list T).

(** The sequence, a saved end() and the items destructed so far. MoveToArray and Clear assign a new sequence. *)
Record state := mks { blocks : seqn; mark : option wref; gone : list T }.
Definition items (q : seqn) : nat := length (destruct_ q).

Definition step (st : state) (o : op) : option (state * out) :=
  let q := blocks st in
  let set q := Some (mks q (mark st) (gone st), Done) in
  let same y := Some (st, y) in
  match o with
  | Append x => match append q x with Some q => set q | None => None end
  | AppendViews xs => match appendViews (length xs) q xs with Some q => set q | None => None end
  | Pop n => match popTail q (Z.of_nat n) with Some (q, d) => Some (mks q (mark st) (gone st ++ d), Done) | None => None end
  | Mark => Some (mks q (Some (end_ q)) (gone st), Done)
  | TruncateToMark =>
    match mark st with
    | None => None
    | Some r => match truncate q r with Some q => set q | None => None end
    end
  | TruncateAt j =>
    match advance j q (begin q) with
    | None => None
    | Some r => match truncate q r with Some q => set q | None => None end
    end
  | Head => match head q with Some x => same (Item x) | None => None end
  | Tail => match tail q with Some x => same (Item x) | None => None end
  | IsEmpty => match isEmpty q with Some b => same (Flag b) | None => None end
  | Count => same (Num (numItems q))
  | All => match iter (items q) q (begin q) with Some l => same (Items l) | None => None end
  | Backwards => match iterBack (items q) q (end_ q) with Some l => same (Items l) | None => None end
  | Views => match readViews (S (length q)) q (begin q) with Some l => same (Items l) | None => None end
  | MoveToArray =>
    match moveToArray q, create with
    | Some l, Some q => Some (mks q None (gone st), Moved l)
    | _, _ => None
    end
  | Clear => match create with Some q' => Some (mks q' None (gone st ++ destruct_ q), Done) | None => None end
  end.

Fixpoint run (st : state) (os : list op) : option (state * list out) :=
  match os with
  | [] => Some (st, [])
  | o :: os =>
    match step st o with
    | None => None
    | Some (st, y) => match run st os with Some (st, ys) => Some (st, y :: ys) | None => None end
    end
  end.
Definition start : option state := match create with Some q => Some (mks q None []) | None => None end.
(** The outputs of a sequence of uses of a new sequence, and the items destructed meanwhile. *)
Definition uses (os : list op) : option (list out * list T) :=
  match start with
  | None => None
  | Some st => match run st os with Some (st, ys) => Some (ys, gone st) | None => None end
  end.
End Sequence.
