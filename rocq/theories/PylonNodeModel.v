(* Model of the object part of /repo/repos/plywood/src/pylon/pylon/pylon/Node.cpp and Node.h. The hash map is the one of
   HashMapModel. [None] is a failed assertion, a read through a null pointer, or a rehash that takes more than the given
   rounds. Simplifications: the values are of any type [A] (nodes, in the code) and copying a value gives an equal one;
   the array of items is a list (its own operations are C16); file offsets are left out. Nodes that are not objects
   answer an invalid node to every get and ignore set and remove (Node.cpp:107, 119, 133): not modelled. *)
From Verif Require Export Base ListUpd StringViewModel HashMapModel.

(** What is stored in a cell of the index: the position of an item (Node.h:35, Item), or, between the construction of
    a cell and the assignment that follows (Node.cpp:56, 126), a position not yet set for a given key. *)
Inductive nkey := Idx (i : Z) | Unset (s : list Z).

Section Object.
Context {A : Type}.
(** Any hash function on strings. *)
Context (hash : list Z -> Z).
Definition nkey_hash (k : nkey) : Z := match k with Unset s => hash s | Idx _ => 0 end.

(** Node.h:37-39 [match] and StringView.h:435-437 [operator==]; the key searched for is [Unset s]. *)
Definition key_match (items : list (list Z * A)) (stored key : nkey) : bool :=
  match stored, key with
  | Idx i, Unset s => match nth_error items (Z.to_nat i) with Some (k, _) => sv_compare k s =? 0 | None => false end
  | Unset s', Unset s => sv_compare s' s =? 0
  | _, Idx _ => false
  end.

(** Node.h:27-44. *)
Record object := mko { index : @hmap nkey unit; oitems : list (list Z * A) }.

(** Node.cpp:88 [createObject] and HashMap.h:279. *)
Definition new_object : option object := option_map (fun h => mko h []) (create 8).

(** Looking at an item beyond the end of the array fails an assertion (ArrayView). The model fails already when some
    position in the index is beyond the end, whether or not it is looked at. *)
Definition in_range (n : Z) (k : nkey) : bool := match k with Idx i => (0 <=? i) && (i <? n) | Unset _ => false end.
Definition indices_ok (o : object) : bool :=
  forallb (fun c => match it c with Some (k, _) => in_range (zlen (oitems o)) k | None => true end) (cells (index o)).

(** The position stored in a cell: [*cursor]. *)
Definition position (h : @hmap nkey unit) (idx : Z) : option nat :=
  match item (cells h) idx with Some (Idx i, _) => Some (Z.to_nat i) | _ => None end.

(** Node.cpp:106-115 [get]. *)
Definition get (o : object) (k : list Z) : option (option A) :=
  if negb (indices_ok o) then None else
  match insertOrFind (key_match (oitems o)) nkey_hash tt (cells (index o)) (Unset k) false with
  | Found idx _ =>
    match position (index o) idx with
    | Some i => match nth_error (oitems o) i with Some (_, v) => Some (Some v) | None => None end
    | None => None
    end
  | NotFound => Some None
  | _ => None
  end.

(** Node.cpp:117-130 [set]. *)
Definition set (rounds : nat) (o : object) (k : list Z) (v : A) : option object :=
  if negb (indices_ok o) then None else
  match HashMapModel.insert (key_match (oitems o)) nkey_hash tt rounds (index o) (Unset k) with
  | None => None
  | Some (h, idx, wasFound) =>
    if wasFound then
      match position h idx with
      | Some i => match nth_error (oitems o) i with Some (k', _) => Some (mko h (upd (oitems o) i (k', v))) | None => None end
      | None => None
      end
    else
      Some (mko (mkm (assign (cells h) idx (Idx (zlen (oitems o)), tt)) (pop h) (clob h)) (oitems o ++ [(k, v)]))
  end.

(** Node.cpp:145-149: the loop over the index. *)
Definition lower (index : Z) (k : nkey) : nkey := match k with Idx i => Idx (if index <? i then i - 1 else i) | Unset s => Unset s end.
Definition adjust (index : Z) (t : list (@cell nkey unit)) : list (@cell nkey unit) :=
  map (fun c => if nx c =? EmptySlot then c else
                mkc (nx c) (fs c) (hs c) (match it c with Some (k, u) => Some (lower index k, u) | None => None end)) t.

(** Node.cpp:132-151 [remove], Array.h:462-469 [erase]. *)
Definition remove (o : object) (k : list Z) : option (object * option A) :=
  if negb (indices_ok o) then None else
  match insertOrFind (key_match (oitems o)) nkey_hash tt (cells (index o)) (Unset k) false with
  | Found idx prev =>
    match position (index o) idx with
    | Some i =>
      match erase_cell (cells (index o)) idx prev, nth_error (oitems o) i with
      | Some (t, c), Some (_, v) =>
        if pop (index o) <=? 0 then None else
        Some (mko (mkm (adjust (Z.of_nat i) t) (pop (index o) - 1) (clob (index o) || c)) (firstn i (oitems o) ++ skipn (S i) (oitems o)), Some v)
      | _, _ => None
      end
    | None => None
    end
  | NotFound => Some (o, None)
  | _ => None
  end.

(** Node.cpp:49-59: the loop of [copy]. The key is inserted without a context (line 56), so comparing an item of the
    index with the key reads through a null pointer: a cell with the same hash counts as found (any two keys match),
    and then the model fails. *)
Fixpoint copy_items (rounds : nat) (h : @hmap nkey unit) (i : Z) (l : list (list Z * A)) : option (@hmap nkey unit) :=
  match l with
  | [] => Some h
  | (k, _) :: l =>
    match HashMapModel.insert (fun _ _ => true) nkey_hash tt rounds h (Unset k) with
    | Some (h, idx, false) => copy_items rounds (mkm (assign (cells h) idx (Idx i, tt)) (pop h) (clob h)) (i + 1) l
    | _ => None
    end
  end.
Definition copy (rounds : nat) (o : object) : option object :=
  match create 8 with
  | None => None
  | Some h => option_map (fun h => mko h (oitems o)) (copy_items rounds h 0 (oitems o))
  end.

(** A history of calls; [List] reads object().items. *)
Inductive nop := Get (k : list Z) | Set_ (k : list Z) (v : A) | Remove (k : list Z) | List.
Inductive nout := Got (v : option A) | Done | Removed (v : option A) | Listing (l : list (list Z * A)).

Definition nstep (rounds : nat) (o : object) (op : nop) : option (object * nout) :=
  match op with
  | Get k => option_map (fun r => (o, Got r)) (get o k)
  | Set_ k v => option_map (fun o => (o, Done)) (set rounds o k v)
  | Remove k => option_map (fun r => (fst r, Removed (snd r))) (remove o k)
  | List => Some (o, Listing (oitems o))
  end.
Fixpoint nrun (rounds : nat) (o : object) (ops : list nop) : option (object * list nout) :=
  match ops with
  | [] => Some (o, [])
  | op :: ops =>
    match nstep rounds o op with
    | None => None
    | Some (o, y) => option_map (fun r => (fst r, y :: snd r)) (nrun rounds o ops)
    end
  end.
(** All calls of a program on a fresh object node. *)
Definition object_run (rounds : nat) (ops : list nop) : option (object * list nout) :=
  match new_object with None => None | Some o => nrun rounds o ops end.
End Object.
Arguments object A : clear implicits.
Arguments nop A : clear implicits.
Arguments nout A : clear implicits.
