(* Model of RT/container/HashMap.cpp and RT/container/HashMap.h
   (RT = /repo/repos/plywood/src/runtime/ply-runtime).
   The table is a list of cells; a cell carries its nextDelta, firstDelta, hash and item. Results [None]
   and [Bad] are a failed assertion, a read of the wrong memory, or (for [insert]) not finishing within
   the given number of rounds. Simplifications: the grouping of cells by four is flattened
   (group idx >> 2, member idx & 3); an item is a key with a value, matched on the key and constructed
   with a default value; the table's byte size stays below 2^32. Not modelled: insertMulti and findNext
   (marked experimental in the source), moved-from and cleared maps (documented as unusable). *)
From Verif Require Export Base ListUpd UtilModel.

Section HashMap.
Context {K V : Type} (eqb : K -> K -> bool) (hash : K -> Z) (dflt : V).

(** HashMap.h:254-260. *)
Record cell := mkc { nx : Z; fs : Z; hs : Z; it : option (K * V) }.

(** HashMap.h:263-265. [clob] is not in the code: it records that an erase has stored 255, the mark of
    an empty cell, as a link. *)
Record hmap := mkm { cells : list cell; pop : Z; clob : bool }.

(** HashMap.h (details), EmptySlot, InitialSize and LinearSearchLimit. *)
Definition EmptySlot : Z := 255.
Definition InitialSize : Z := 4.
Definition LinearSearchLimit : Z := 128.

Definition sizeMask (t : list cell) : Z := zlen t - 1.

(** The cell at [idx & m_sizeMask], as addressed everywhere, e.g. HashMap.cpp:139-140. *)
Definition fresh : cell := mkc EmptySlot 0 0 None.
Definition slot (t : list cell) (idx : Z) : nat := Z.to_nat (Z.land idx (sizeMask t)).
Definition getc (t : list cell) (idx : Z) : cell := nth (slot t idx) t fresh.
Definition setc (t : list cell) (idx : Z) (c : cell) : list cell := upd t (slot t idx) c.

(** The u8* links: the firstDelta or the nextDelta of a cell. *)
Inductive link := First (idx : Z) | Next (idx : Z).
Definition rd (t : list cell) (l : link) : Z :=
  match l with First i => fs (getc t i) | Next i => nx (getc t i) end.
Definition wr (t : list cell) (l : link) (v : Z) : list cell :=
  match l with
  | First i => let c := getc t i in setc t i (mkc (nx c) v (hs c) (it c))
  | Next i => let c := getc t i in setc t i (mkc v (fs c) (hs c) (it c))
  end.

(** Marking a cell used, with its hash, and constructing the item (HashMap.cpp:144-147, 194-199). *)
Definition occupy (t : list cell) (idx h : Z) (x : K * V) : list cell :=
  setc t idx (mkc 0 (fs (getc t idx)) h (Some x)).
(** Destructing the item and marking the cell empty (HashMap.cpp:295-296, 308-309). *)
Definition vacate (t : list cell) (idx : Z) : list cell :=
  let c := getc t idx in setc t idx (mkc EmptySlot (fs c) (hs c) None).

(** HashMap.cpp:45-56 [createTable]. *)
Definition createTable (size : Z) : option (list cell) :=
  if (4 <=? size) && isPowerOf2 32 size then Some (repeat fresh (Z.to_nat size)) else None.

(** match(item, key): the cell holds an item with this hash and key (HashMap.cpp:150-157, 167-173). *)
Definition matches (c : cell) (h : Z) (k : K) : bool :=
  (hs c =? h) && match it c with Some (k', _) => eqb k' k | None => false end.

Inductive walked := Hit (idx : Z) (prev : link) | End (idx : Z) (prev : link) | Lost.
(** HashMap.cpp:160-177: follow the links of the bucket. [fuel] bounds the number of links. *)
Fixpoint walk (fuel : nat) (t : list cell) (h : Z) (k : K) (idx : Z) (prev : link) : walked :=
  let delta := rd t prev in
  if delta =? 0 then End idx prev else
  match fuel with
  | O => Lost
  | S fuel =>
    let idx := u32 (idx + delta) in
    let c := getc t idx in
    if nx c =? EmptySlot then Lost else
    if matches c h k then Hit idx prev else walk fuel t h k idx (Next idx)
  end.

Inductive probed := Free (idx : Z) | Full | ProbeBad.
(** HashMap.cpp:189-206 and 245-263: look for an empty cell in the next [n] cells. *)
Fixpoint probe (n : nat) (t : list cell) (h idx : Z) : probed :=
  match n with
  | O => Full
  | S n =>
    let idx := u32 (idx + 1) in
    let c := getc t idx in
    if nx c =? EmptySlot then Free idx
    else if hs c =? h then ProbeBad else probe n t h idx
  end.

Inductive found := Found (idx : Z) (prev : option link) | NotFound
                 | Inserted (t : list cell) (idx : Z) | Overflow | Bad.
(** HashMap.cpp:127-212 [insertOrFind], with AllowFind always set. *)
Definition insertOrFind (t : list cell) (k : K) (allowInsert : bool) : found :=
  let h := hash k in
  let c := getc t h in
  if allowInsert && (nx c =? EmptySlot) && (fs c =? 0) then Inserted (occupy t h h (k, dflt)) h else
  if negb (nx c =? EmptySlot) && matches c h k then Found h None else
  match walk (length t) t h k h (First h) with
  | Lost => Bad
  | Hit idx prev => Found idx (Some prev)
  | End idx prev =>
    if negb allowInsert then NotFound else
    let dist := u32 (idx - h) in
    if sizeMask t <? dist then Bad else
    match probe (Z.to_nat (Z.min (sizeMask t - dist) LinearSearchLimit)) t h idx with
    | ProbeBad => Bad
    | Full => Overflow
    | Free i => Inserted (wr (occupy t i h (k, dflt)) prev (u8 (u32 (i - idx)))) i
    end
  end.

(** HashMap.cpp:231-241: follow the links to the last cell of the bucket. *)
Fixpoint walk_end (fuel : nat) (t : list cell) (idx : Z) (prev : link) : option (Z * link) :=
  let delta := rd t prev in
  if delta =? 0 then Some (idx, prev) else
  match fuel with
  | O => None
  | S fuel =>
    let idx := u32 (idx + delta) in
    if nx (getc t idx) =? EmptySlot then None else walk_end fuel t idx (Next idx)
  end.

(** HashMap.cpp:214-270 [insertForMigration], followed by the move of the item (85-87). *)
Definition insertForMigration (t : list cell) (h : Z) (x : K * V) : option (list cell) :=
  let c := getc t h in
  if nx c =? EmptySlot then
    if fs c =? 0 then Some (occupy t h h x) else None
  else
  match walk_end (length t) t h (First h) with
  | None => None
  | Some (idx, prev) =>
    match probe (Z.to_nat (Z.min (sizeMask t) LinearSearchLimit)) t h idx with
    | Free i => Some (wr (occupy t i h x) prev (u8 (u32 (i - idx))))
    | _ => None
    end
  end.

(** HashMap.cpp:79-90: the loop over the old cells. *)
Fixpoint migrate_cells (src : list cell) (t : list cell) : option (list cell) :=
  match src with
  | [] => Some t
  | c :: r =>
    if nx c =? EmptySlot then migrate_cells r t else
    match it c with
    | None => None
    | Some x => match insertForMigration t (hs c) x with None => None | Some t => migrate_cells r t end
    end
  end.

(** HashMap.cpp:72-92 [migrateToNewTable]. *)
Definition migrate (m : hmap) : option hmap :=
  match createTable (Z.max InitialSize (roundUpPowerOf2_32 (u32 (pop m * 2)))) with
  | None => None
  | Some t => match migrate_cells (cells m) t with None => None | Some t => Some (mkm t (pop m) (clob m)) end
  end.

(** HashMap.cpp:332-347 [constructFindWithInsert]: at most [rounds] attempts. Result: the map, the cell's
    index, whether the item was found. *)
Fixpoint insert (rounds : nat) (m : hmap) (k : K) : option (hmap * Z * bool) :=
  match rounds with
  | O => None
  | S rounds =>
    match insertOrFind (cells m) k true with
    | Found idx _ => Some (m, idx, true)
    | Inserted t idx => Some (mkm t (u32 (pop m + 1)) (clob m), idx, false)
    | Overflow => match migrate m with None => None | Some m => insert rounds m k end
    | NotFound | Bad => None
    end
  end.

(** HashMap.cpp:272-327 [erase]. Moving the next item into the current slot (line 318 on) reads through
    nextGroup, whose address (line 302) does not account for the size of the items: [None].
    The second result tells whether 255 was stored as a link. *)
Definition erase_cell (t : list cell) (idx : Z) (prev : option link) : option (list cell * bool) :=
  let valid := match prev with
               | None => true
               | Some p => negb (rd t p =? 0) &&
                           (slot t (u32 (idx - rd t p)) =? slot t (match p with First i | Next i => i end))%nat
               end in
  if negb valid then None else
  let cur := nx (getc t idx) in
  if cur =? 0 then
    let t1 := vacate t idx in
    Some (match prev with None => t1 | Some p => wr t1 p 0 end, false)
  else
  match prev with
  | None => None
  | Some p =>
    let d := u32 (u32 (idx + cur) - u32 (idx - rd t p)) in
    if d <? 256 then Some (wr (vacate t idx) p d, d =? EmptySlot) else None
  end.

(** HashMap.h:500-512, 597-604: the cells visited by begin() and next(), from [idx] on. *)
Fixpoint iter (n : nat) (t : list cell) (idx : Z) : option (list (K * V)) :=
  match n with
  | O => Some []
  | S n =>
    let c := getc t idx in
    if nx c =? EmptySlot then iter n t (idx + 1) else
    match it c with
    | None => None
    | Some x => option_map (cons x) (iter n t (idx + 1))
    end
  end.

Inductive op := Touch (k : K) | Assign (k : K) (v : V) | Find (k : K) | Erase (k : K) | Count | Iterate.
Inductive out := Item (wasFound : bool) (v : V) | Lookup (r : option V) | Erased (b : bool)
               | Num (n : Z) | Items (l : list (K * V)).

Definition item (t : list cell) (idx : Z) : option (K * V) := it (getc t idx).
Definition assign (t : list cell) (idx : Z) (x : K * V) : list cell :=
  let c := getc t idx in setc t idx (mkc (nx c) (fs c) (hs c) (Some x)).

(** A call on the map: insertOrFind (HashMap.h:459) reading the item or storing a value in it, find
    (475), find and erase (360-365), numItems (446), a range-for loop. *)
Definition step (rounds : nat) (m : hmap) (o : op) : option (hmap * out) :=
  match o with
  | Touch k =>
    match insert rounds m k with
    | Some (m, idx, b) => match item (cells m) idx with Some (_, v) => Some (m, Item b v) | None => None end
    | None => None
    end
  | Assign k v =>
    match insert rounds m k with
    | Some (m, idx, b) =>
      match item (cells m) idx with
      | Some (k', v0) => Some (mkm (assign (cells m) idx (k', v)) (pop m) (clob m), Item b v)
      | None => None
      end
    | None => None
    end
  | Find k =>
    match insertOrFind (cells m) k false with
    | Found idx _ => match item (cells m) idx with Some (_, v) => Some (m, Lookup (Some v)) | None => None end
    | NotFound => Some (m, Lookup None)
    | _ => None
    end
  | Erase k =>
    match insertOrFind (cells m) k false with
    | Found idx prev =>
      match erase_cell (cells m) idx prev with
      | Some (t, c) => if pop m <=? 0 then None else Some (mkm t (pop m - 1) (clob m || c), Erased true)
      | None => None
      end
    | NotFound => Some (m, Erased false)
    | _ => None
    end
  | Count => Some (m, Num (pop m))
  | Iterate => match iter (length (cells m)) (cells m) 0 with Some l => Some (m, Items l) | None => None end
  end.

(** HashMap.h:279, HashMap.cpp:25-28: the constructor. *)
Definition create (initialSize : Z) : option hmap :=
  option_map (fun t => mkm t 0 false) (createTable initialSize).

Fixpoint run (rounds : nat) (m : hmap) (os : list op) : option (hmap * list out) :=
  match os with
  | [] => Some (m, [])
  | o :: os =>
    match step rounds m o with
    | None => None
    | Some (m, y) => match run rounds m os with None => None | Some (m, ys) => Some (m, y :: ys) end
    end
  end.
End HashMap.
