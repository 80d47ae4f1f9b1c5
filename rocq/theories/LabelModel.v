(* Model of RT/string/Label.cpp and Label.h, and of the part of RT/container/BigPool.h they use
   (RT = /repo/repos/plywood/src/runtime/ply-runtime). The hash map is the one of HashMapModel. [None] is
   a failed assertion, a read outside the pool, or a rehash that takes more than the given rounds.
   Simplifications: the pool is the list of its bytes; the race detector of a single thread never fires
   and is left out. *)
From Verif Require Export Base StringViewModel VarintModel HashMapModel.

(** BigPool.h:20: the reserved address range. Committing beyond it fails (BigPool.cpp:28). *)
Definition NumReservedBytes : Z := 2 ^ 30.

(** Label.cpp:46-48, Label.h:48-50: the string stored at [id]. *)
Definition viewAt (pool : list Z) (id : Z) : option (list Z) :=
  if (0 <=? id) && (id <? zlen pool) then
    match decodeValue (skipn (Z.to_nat id) pool) with
    | Some (n, rest) => if n <=? zlen rest then Some (firstn (Z.to_nat n) rest) else None
    | None => None
    end
  else None.

(** What is stored in a cell of the map: an id (Label.h:45, Item), or, between the construction of a cell
    and the assignment of Label.cpp:26, an id not yet set for a given string. *)
Inductive lkey := Id (id : Z) | Unset (s : list Z).

(** Label.h:47-51 [match] and StringView.h:435-437 [operator==]; the key searched for is [Unset s]. *)
Definition label_match (pool : list Z) (stored key : lkey) : bool :=
  match stored, key with
  | Id id, Unset s => match viewAt pool id with Some s' => sv_compare s' s =? 0 | None => false end
  | Unset s', Unset s => sv_compare s' s =? 0
  | _, Id _ => false
  end.

Section Labels.
(** Any hash function on strings. *)
Context (hash : list Z -> Z).
Definition label_hash (k : lkey) : Z := match k with Unset s => hash s | Id _ => 0 end.

(** Label.h:54-56. *)
Record labels := mkl { pool : list Z; strToIndex : @hmap lkey unit }.

(** Label.cpp:13-15 and HashMap.h:279: the constructor. *)
Definition new_labels : option labels := option_map (mkl [0]) (create 8).

(** BigPool.h:73-77 [alloc], then the writes through the returned pointer. *)
Definition pool_append (p bytes : list Z) : option (list Z) :=
  if zlen p + zlen bytes <=? NumReservedBytes then Some (p ++ bytes) else None.

(** Label.cpp:17-34 [insertOrFind]. *)
Definition intern (rounds : nat) (m : labels) (s : list Z) : option (labels * Z) :=
  match insert (label_match (pool m)) label_hash tt rounds (strToIndex m) (Unset s) with
  | None => None
  | Some (h, idx, wasFound) =>
    if wasFound then match item (cells h) idx with Some (Id id, _) => Some (mkl (pool m) h, id) | _ => None end
    else
      let numEntryBytes := u32 (Z.of_nat (getEncLen (zlen s)) + zlen s) in
      let resultID := zlen (pool m) in
      let entry := encodeValue (zlen s) ++ s in
      if negb (zlen entry =? numEntryBytes) || negb (resultID <? 2 ^ 32) then None else
      match pool_append (pool m) entry with
      | None => None
      | Some p => Some (mkl p (mkm (assign (cells h) idx (Id resultID, tt)) (HashMapModel.pop h) (clob h)), resultID)
      end
  end.

(** Label.cpp:36-43 [find]; label 0 is the invalid label. *)
Definition query (m : labels) (s : list Z) : option Z :=
  match insertOrFind (label_match (pool m)) label_hash tt (cells (strToIndex m)) (Unset s) false with
  | Found idx _ => match item (cells (strToIndex m)) idx with Some (Id id, _) => Some id | _ => None end
  | NotFound => Some 0
  | _ => None
  end.

(** A history of calls. [ViewOf j] views the label that the j-th call answered (the invalid label if
    that call did not answer a label). *)
Inductive lop := Intern (s : list Z) | Query (s : list Z) | ViewOf (j : nat).
Inductive lout := Lab (l : Z) | Str (s : list Z).
Definition answered (ys : list lout) (j : nat) : Z := match nth_error ys j with Some (Lab l) => l | _ => 0 end.

Definition lstep (rounds : nat) (m : labels) (ys : list lout) (o : lop) : option (labels * lout) :=
  match o with
  | Intern s => match intern rounds m s with Some (m, l) => Some (m, Lab l) | None => None end
  | Query s => match query m s with Some l => Some (m, Lab l) | None => None end
  | ViewOf j => match viewAt (pool m) (answered ys j) with Some s => Some (m, Str s) | None => None end
  end.

(** [ys] are the answers so far; the result adds the answers to [os]. *)
Fixpoint lrun (rounds : nat) (m : labels) (ys : list lout) (os : list lop) : option (labels * list lout) :=
  match os with
  | [] => Some (m, ys)
  | o :: os => match lstep rounds m ys o with None => None | Some (m, y) => lrun rounds m (ys ++ [y]) os end
  end.

(** All calls of a program on a fresh label map. *)
Definition labels_run (rounds : nat) (os : list lop) : option (list lout) :=
  match new_labels with None => None | Some m => option_map snd (lrun rounds m [] os) end.
End Labels.
