(* Model of RT/container/BTree.h (RT = /repo/repos/plywood/src/runtime/ply-runtime).
   [None] is a failed assertion or a null dereference. Simplifications: a node pointer is the path of link
   positions that leads to it from the root, so there are no parent pointers: what the code does by
   climbing to the parent is done here when the recursion returns to it. Heap blocks are not modelled.
   Shifting loops are list insertions and deletions. *)
From Verif Require Export Base ListUpd.

Section BTree.
(** Traits: getIndex, less, the == of Index, NodeCapacity. *)
Context {Item Index : Type} (getIndex : Item -> Index) (less eqI : Index -> Index -> bool) (cap : nat).

(** BTree.h:22-30: links with their index and child, or items. *)
Inductive node := Leaf (items : list Item) | Inner (links : list (Index * node)).
Definition size (n : node) : nat := match n with Leaf l => length l | Inner l => length l end.
Definition isLeaf (n : node) : bool := match n with Leaf _ => true | Inner _ => false end.

(** The shifting loops of BTree.h:138-140, 155-157, 207-209, 231-233. *)
Definition insert_at {A} (l : list A) (pos : nat) (x : A) : list A := firstn pos l ++ x :: skipn pos l.
Definition delete_at {A} (l : list A) (pos : nat) : list A := firstn pos l ++ skipn (S pos) l.

(** BTree.h:56-70 [getLastChildLessThan]: the loop, then with its assertions. Result: the position of the link. *)
Fixpoint lastLess (fuel : nat) (links : list (Index * node)) (x : Index) (lo hi : nat) : option nat :=
  if (lo <? hi)%nat then
    match fuel with
    | O => None
    | S fuel =>
      let mid := ((lo + hi + 1) / 2)%nat in
      match nth_error links mid with
      | None => None
      | Some (k, _) => if less k x then lastLess fuel links x mid hi else lastLess fuel links x lo (mid - 1)
      end
    end
  else Some lo.
Definition getLastChildLessThan (links : list (Index * node)) (x : Index) : option nat :=
  if (0 <? length links)%nat then lastLess (length links) links x 0 (length links - 1) else None.

(** The loop of BTree.h:167-181 [findGreaterOrEqualPos] and 183-200 [findInsertPos], which differ in the
    test [goesLeft] on the index of the middle item. *)
Fixpoint bisect (fuel : nat) (goesLeft : Index -> bool) (items : list Item) (lo hi : nat) : option nat :=
  if (lo <? hi)%nat then
    match fuel with
    | O => None
    | S fuel =>
      let mid := ((lo + hi) / 2)%nat in
      match nth_error items mid with
      | None => None
      | Some y => if goesLeft (getIndex y) then bisect fuel goesLeft items lo mid else bisect fuel goesLeft items (mid + 1) hi
      end
    end
  else Some lo.
Definition findGreaterOrEqualPos (items : list Item) (x : Index) : option nat :=
  bisect (length items) (fun k => negb (less k x)) items 0 (length items).
Definition findInsertPos (items : list Item) (x : Index) : option nat :=
  bisect (length items) (fun k => less x k) items 0 (length items).

(** BTree.h:121-128 [getFirstIndex]. *)
Definition getFirstIndex (n : node) : option Index :=
  match n with
  | Leaf (y :: _) => Some (getIndex y)
  | Inner ((k, _) :: _) => Some k
  | _ => None
  end.

(** BTree.h:526-556 [updateLinkIndex]: one round of the loop, at link [j] of a node. Result: the links, and
    whether the loop continues in the parent. *)
Definition touch (links : list (Index * node)) (j : nat) (k : Index) : option (list (Index * node) * bool) :=
  match nth_error links j with
  | None => None
  | Some (old, c) =>
    let left_ok := match j with O => true | S i => match nth_error links i with Some (kl, _) => negb (less k kl) | None => false end end in
    let right_ok := match nth_error links (S j) with Some (kr, _) => negb (less kr k) | None => true end in
    if left_ok && right_ok then
      if eqI k old then Some (links, false) else Some (upd links j (k, c), (j =? 0)%nat)
    else None
  end.

(** What an insertion below a link gives back: the node, its new right sibling if it was split, which of
    the two holds the new item, and whether the link to that one must be updated. *)
Record ires := mkir { main : node; extra : option (Index * node); inExtra : bool; bump : bool }.

(** BTree.h:202-214 [insertItemAt] with the check of the iterator (465-469). *)
Definition insertItemAt (l : list Item) (pos : nat) (x : Item) : option (list Item) :=
  if (length l <? cap)%nat && (pos <=? length l)%nat && (pos <? cap)%nat then Some (insert_at l pos x) else None.

(** BTree.h:616-623 in a leaf, with splitLeaf (244-262), then insertItemAt (627-630). *)
Definition ins_leaf (l : list Item) (x : Item) : option ires :=
  match findInsertPos l (getIndex x) with
  | None => None
  | Some pos =>
    if (cap <=? length l)%nat then
      if (length l <? 2)%nat then None else
      let mid := (length l / 2)%nat in
      match skipn mid l with
      | [] => None
      | r0 :: _ =>
        if (mid <? pos)%nat then
          match insertItemAt (skipn mid l) (pos - mid) x with
          | None => None
          | Some r => Some (mkir (Leaf (firstn mid l)) (Some (getIndex r0, Leaf r)) true (pos - mid =? 0)%nat)
          end
        else
          match insertItemAt (firstn mid l) pos x with
          | None => None
          | Some r => Some (mkir (Leaf r) (Some (getIndex r0, Leaf (skipn mid l))) false (pos =? 0)%nat)
          end
      end
    else
      match insertItemAt l pos x with
      | None => None
      | Some r => Some (mkir (Leaf r) None false (pos =? 0)%nat)
      end
  end.

(** BTree.h:130-145 [insertLink]. *)
Definition insertLink (links : list (Index * node)) (pos : nat) (e : Index * node) : option (list (Index * node)) :=
  if (length links <? cap)%nat && (pos <=? length links)%nat then Some (insert_at links pos e) else None.

(** BTree.h:363-376 [insertRightChild] in an existing node, with splitInnerNode (264-282): the new link is
    placed at [rightPos]. Result: the node's links and, after a split, those of the right sibling. *)
Definition insertRightChild (links : list (Index * node)) (rightPos : nat) (e : Index * node)
  : option (list (Index * node) * option (list (Index * node))) :=
  if (cap <=? length links)%nat then
    if (length links <? 2)%nat then None else
    let mid := (length links / 2)%nat in
    if (mid <? rightPos)%nat then
      match insertLink (skipn mid links) (rightPos - mid) e with
      | None => None
      | Some r => Some (firstn mid links, Some r)
      end
    else
      match insertLink (firstn mid links) rightPos e with
      | None => None
      | Some r => Some (r, Some (skipn mid links))
      end
  else
    match insertLink links rightPos e with
    | None => None
    | Some r => Some (r, None)
    end.

(** updateLinkIndex at this level, if it is still running: [j] counts through both siblings. *)
Definition touch2 (l : list (Index * node)) (r : option (list (Index * node))) (j : nat) (k : Index) (b : bool) : option ires :=
  match r with
  | None =>
    if b then match touch l j k with Some (l, c) => Some (mkir (Inner l) None false c) | None => None end
    else Some (mkir (Inner l) None false false)
  | Some r =>
    match r with
    | [] => None
    | (kr, _) :: _ =>
      if (length l <=? j)%nat then
        if b then match touch r (j - length l) k with Some (r, c) => Some (mkir (Inner l) (Some (kr, Inner r)) true c) | None => None end
        else Some (mkir (Inner l) (Some (kr, Inner r)) true false)
      else
        if b then match touch l j k with Some (l, c) => Some (mkir (Inner l) (Some (kr, Inner r)) false c) | None => None end
        else Some (mkir (Inner l) (Some (kr, Inner r)) false false)
    end
  end.

(** An inner node after the insertion [r] below its link [i]. *)
Definition ins_inner (links : list (Index * node)) (i : nat) (r : ires) (k : Index) : option ires :=
  match nth_error links i with
  | None => None
  | Some (ki, _) =>
    let links1 := upd links i (ki, main r) in
    let j := if inExtra r then S i else i in
    match extra r with
    | None => touch2 links1 None j k (bump r)
    | Some e =>
      match insertRightChild links1 (S i) e with
      | None => None
      | Some (l, rt) => touch2 l rt j k (bump r)
      end
    end
  end.

(** BTree.h:609-625 [prepareInsert] and 627-634 [insert], below a node. [fuel] is the height. *)
Fixpoint ins (fuel : nat) (n : node) (x : Item) : option ires :=
  match n with
  | Leaf l => ins_leaf l x
  | Inner links =>
    match fuel with
    | O => None
    | S fuel =>
      match getLastChildLessThan links (getIndex x) with
      | None => None
      | Some i =>
        match nth_error links i with
        | None => None
        | Some (_, c) => match ins fuel c x with None => None | Some r => ins_inner links i r (getIndex x) end
        end
      end
    end
  end.

Fixpoint height (n : node) : nat := match n with Inner ((_, c) :: _) => S (height c) | _ => O end.

(** BTree.h:627-634 [insert]: on the tree, whose root may be null. A split root gets a new parent (377-388). *)
Definition insert (root : option node) (x : Item) : option node :=
  let n := match root with None => Leaf [] | Some n => n end in
  match ins (height n) n x with
  | None => None
  | Some r =>
    match extra r with
    | None => Some (main r)
    | Some e =>
      match getFirstIndex n with
      | None => None
      | Some k0 =>
        let links := [(k0, main r); e] in
        if bump r then
          match touch links (if inExtra r then 1%nat else 0%nat) (getIndex x) with Some (l, _) => Some (Inner l) | None => None end
        else Some (Inner links)
      end
    end
  end.

(** What a removal below a link gives back: the node, the index for updateIndexInParent (216-224) if it goes
    on to this link, the one for updateLinkIndex likewise, and whether tryCompact is called on the node. *)
Record rres := mkrr { rnode : node; rupd : option Index; rtouch : option Index; rcomp : bool }.

(** BTree.h:284-319 [merge]. *)
Definition merge (l r : node) : option node :=
  if (size l + size r <=? cap)%nat then
    match l, r with
    | Leaf a, Leaf b => Some (Leaf (a ++ b))
    | Inner a, Inner b => Some (Inner (a ++ b))
    | _, _ => None
    end
  else None.

(** BTree.h:147-165 [deleteLink]: the links, and the index for updateIndexInParent. *)
Definition deleteLink (links : list (Index * node)) (pos : nat) (pending : option Index)
  : option (list (Index * node) * option Index) :=
  if (pos <? length links)%nat then
    let l := delete_at links pos in
    Some (l, match pos, l with O, (k, _) :: _ => Some k | _, _ => pending end)
  else None.

(** BTree.h:398-433 [tryCompact] on the child at [pos]; [u] and [t] are the pending updates. *)
Definition tryCompact (links : list (Index * node)) (pos : nat) (u t : option Index) : option rres :=
  match nth_error links pos with
  | None => None
  | Some (kc, c) =>
    if (size c =? 0)%nat then
      match deleteLink links pos u with
      | None => None
      | Some (l, u) => Some (mkrr (Inner l) u t true)
      end
    else
      let left := match pos with O => None | S p => nth_error links p end in
      let kinds := match left with Some (_, l) => Bool.eqb (isLeaf l) (isLeaf c) | None => true end in
      if negb kinds then None else
      let tryRight :=
        match nth_error links (S pos) with
        | None => Some (mkrr (Inner links) u t false)
        | Some (_, r) =>
          if negb (Bool.eqb (isLeaf r) (isLeaf c)) then None else
          if (size c + size r <=? cap)%nat then
            match merge c r with
            | None => None
            | Some m =>
              match deleteLink (upd links pos (kc, m)) (S pos) u with
              | None => None
              | Some (l, u) => Some (mkrr (Inner l) u t true)
              end
            end
          else Some (mkrr (Inner links) u t false)
        end in
      match left with
      | None => tryRight
      | Some (kl, l) =>
        if (size c + size l <=? cap)%nat then
          match merge l c with
          | None => None
          | Some m =>
            match deleteLink (upd links (pos - 1) (kl, m)) pos u with
            | None => None
            | Some (l, u) => Some (mkrr (Inner l) u t true)
            end
          end
        else tryRight
      end
  end.

(** BTree.h:678-689 [remove] of the item at [path], with deleteItem (226-242), below a node. *)
Fixpoint rm (n : node) (path : list nat) : option (rres * Item) :=
  match path with
  | [] => None
  | p :: path =>
    match n with
    | Leaf l =>
      match nth_error l p with
      | None => None
      | Some y =>
        let l' := delete_at l p in
        let u := match p, l' with O, z :: _ => Some (getIndex z) | _, _ => None end in
        Some (mkrr (Leaf l') u u true, y)
      end
    | Inner links =>
      match nth_error links p with
      | None => None
      | Some (ki, c) =>
        match rm c path with
        | None => None
        | Some (r, y) =>
          let links1 := upd links p (match rupd r with Some k => k | None => ki end, rnode r) in
          let u := if (p =? 0)%nat then rupd r else None in
          match (match rtouch r with
                 | None => Some (links1, None)
                 | Some k => match touch links1 p k with Some (l, b) => Some (l, if b then Some k else None) | None => None end
                 end) with
          | None => None
          | Some (links2, t) =>
            if rcomp r then match tryCompact links2 p u t with Some r => Some (r, y) | None => None end
            else Some (mkrr (Inner links2) u t false, y)
          end
        end
      end
    end
  end.

(** BTree.h:678-689 [remove] and the root case of tryCompact (434-444). *)
Definition remove (root : option node) (path : list nat) : option (option node * Item) :=
  match root with
  | None => None
  | Some n =>
    match rm n path with
    | None => None
    | Some (r, y) =>
      if rcomp r then
        match rnode r with
        | Leaf [] | Inner [] => Some (None, y)
        | Inner [(_, c)] => Some (Some c, y)
        | n => Some (Some n, y)
        end
      else Some (Some (rnode r), y)
    end
  end.

(** BTree.h:691-703 [begin]: the path to the first item. *)
Fixpoint leftmost (n : node) : list nat :=
  match n with Inner ((_, c) :: _) => O :: leftmost c | _ => [O] end.
(** BTree.h:112-116: down the last links, to the last item of the last leaf. *)
Fixpoint rightmost (n : node) : list nat :=
  match n with
  | Leaf l => [(length l - 1)%nat]
  | Inner l => (fix go (l : list (Index * node)) (i : nat) : list nat :=
                  match l with [] => [] | [(_, c)] => i :: rightmost c | _ :: l => go l (S i) end) l O
  end.

(** BTree.h:481-493 [next], with getRightSibling (84-101); [None] is the end of the tree. *)
Fixpoint next (n : node) (path : list nat) : option (list nat) :=
  match path, n with
  | [p], Leaf l => if (p + 1 <? length l)%nat then Some [(p + 1)%nat] else None
  | i :: path, Inner l =>
    match nth_error l i with
    | None => None
    | Some (_, c) =>
      match next c path with
      | Some p => Some (i :: p)
      | None => match nth_error l (S i) with Some (_, c) => Some (S i :: leftmost c) | None => None end
      end
    end
  | _, _ => None
  end.
(** BTree.h:495-504 [prev], with getLeftSibling (103-119); [None] means there is no left sibling (a null
    dereference in the code). *)
Fixpoint prev (n : node) (path : list nat) : option (list nat) :=
  match path, n with
  | [p], Leaf l => match p with O => None | S p => Some [p] end
  | i :: path, Inner l =>
    match nth_error l i with
    | None => None
    | Some (_, c) =>
      match prev c path with
      | Some p => Some (i :: p)
      | None => match i with
                | O => None
                | S i => match nth_error l i with Some (_, c) => Some (i :: rightmost c) | None => None end
                end
      end
    end
  | _, _ => None
  end.
(** BTree.h:476-479 [getItem]. *)
Fixpoint getItem (n : node) (path : list nat) : option Item :=
  match path, n with
  | [p], Leaf l => nth_error l p
  | i :: path, Inner l => match nth_error l i with Some (_, c) => getItem c path | None => None end
  | _, _ => None
  end.

(** The descent of BTree.h:583-586 and 599-602, and findGreaterOrEqualPos in the leaf: the path to the leaf
    and the position in it, which may be its size. *)
Fixpoint descend (n : node) (x : Index) (fuel : nat) : option (list nat * nat * nat) :=
  match n with
  | Leaf l => match findGreaterOrEqualPos l x with Some p => Some ([], p, length l) | None => None end
  | Inner links =>
    match fuel with
    | O => None
    | S fuel =>
      match getLastChildLessThan links x with
      | None => None
      | Some i =>
        match nth_error links i with
        | None => None
        | Some (_, c) => match descend c x fuel with Some (q, p, s) => Some (i :: q, p, s) | None => None end
        end
      end
    end
  end.
(** BTree.h:596-607 [findFirstGreaterOrEqualTo]; the inner [None] is the end. The right sibling of a leaf is
    reached from its last position. *)
Definition findFirstGreaterOrEqualTo (root : option node) (x : Index) : option (option (list nat)) :=
  match root with
  | None => Some None
  | Some n =>
    match descend n x (height n) with
    | None => None
    | Some (q, p, s) => if (s <=? p)%nat then Some (next n (q ++ [(s - 1)%nat])) else Some (Some (q ++ [p]))
    end
  end.
(** BTree.h:580-594 [findLastLessThan]. *)
Definition findLastLessThan (root : option node) (x : Index) : option (option (list nat)) :=
  match root with
  | None => Some None
  | Some n =>
    match descend n x (height n) with
    | None => None
    | Some (q, p, s) => match p with S p => Some (Some (q ++ [p])) | O => Some (prev n (q ++ [O])) end
    end
  end.

(** for (it; it != end(); ++it): the items from [path] on. *)
Fixpoint from (fuel : nat) (n : node) (path : option (list nat)) : option (list Item) :=
  match path with
  | None => Some []
  | Some p =>
    match fuel with
    | O => None
    | S fuel => match getItem n p with None => None | Some y => option_map (cons y) (from fuel n (next n p)) end
    end
  end.
(** The items from [path] back to begin(). *)
Fixpoint back (fuel : nat) (n : node) (path : option (list nat)) : option (list Item) :=
  match path with
  | None => Some []
  | Some p =>
    match fuel with
    | O => None
    | S fuel => match getItem n p with None => None | Some y => option_map (cons y) (back fuel n (prev n p)) end
    end
  end.

(** The number of items, to bound the loops. *)
Fixpoint count (n : node) : nat :=
  match n with
  | Leaf l => length l
  | Inner l => (fix go (l : list (Index * node)) : nat := match l with [] => O | (_, c) :: l => (count c + go l)%nat end) l
  end.

Inductive op := Insert (x : Item) | RemoveNth (j : nat) | RemoveGE (k : Index) | PopFront | Front | IsEmpty | Clear
              | All | FromGE (k : Index) | BelowBackwards (k : Index).
Inductive out := Done | Removed (x : option Item) | First (x : Item) | Empty (b : bool) | Items (l : list Item).

Fixpoint advance (j : nat) (n : node) (path : option (list nat)) : option (list nat) :=
  match j, path with
  | O, _ => path
  | S j, Some p => advance j n (next n p)
  | S _, None => None
  end.

Definition walk (f : nat -> node -> option (list nat) -> option (list Item)) (root : option node) (path : option (list nat)) : option (list Item) :=
  match root with None => Some [] | Some n => f (count n) n path end.

(** A use of the tree. RemoveNth: begin(), then [j] times next(), then remove() unless at the end; RemoveGE:
    the same from findFirstGreaterOrEqualTo. *)
Definition step (t : option node) (o : op) : option (option node * out) :=
  let removeAt p := match p with
                    | None => Some (t, Removed None)
                    | Some p => match remove t p with Some (t, y) => Some (t, Removed (Some y)) | None => None end
                    end in
  match o with
  | Insert x => match insert t x with Some n => Some (Some n, Done) | None => None end
  | RemoveNth j => match t with None => Some (t, Removed None) | Some n => removeAt (advance j n (Some (leftmost n))) end
  | RemoveGE k => match findFirstGreaterOrEqualTo t k with None => None | Some p => removeAt p end
  | PopFront => match t with None => None | Some n => removeAt (Some (leftmost n)) end
  | Front => match t with None => None | Some n => match getItem n (leftmost n) with Some y => Some (t, First y) | None => None end end
  | IsEmpty => Some (t, Empty (match t with None => true | _ => false end))
  | Clear => Some (None, Done)
  | All => match walk from t (match t with Some n => Some (leftmost n) | None => None end) with Some l => Some (t, Items l) | None => None end
  | FromGE k => match findFirstGreaterOrEqualTo t k with
                | None => None
                | Some p => match walk from t p with Some l => Some (t, Items l) | None => None end
                end
  | BelowBackwards k => match findLastLessThan t k with
                        | None => None
                        | Some p => match walk back t p with Some l => Some (t, Items l) | None => None end
                        end
  end.

Fixpoint run (t : option node) (os : list op) : option (option node * list out) :=
  match os with
  | [] => Some (t, [])
  | o :: os =>
    match step t o with
    | None => None
    | Some (t, y) => match run t os with Some (t, ys) => Some (t, y :: ys) | None => None end
    end
  end.
End BTree.
