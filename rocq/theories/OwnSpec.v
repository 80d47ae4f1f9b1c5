(* What owning pointers mean: what a pointer owns is its own tree of objects. Only the commands and the kinds
   of pointers of the model are used here. *)
From Verif Require Import OwnModel.
Local Open Scope list_scope.

(** What a pointer contains: the number of an object or nothing, and whether it owns it. *)
Record content := mkContent { cKind : kind; cId : option nat; cOwns : bool }.
Definition nothing (k : kind) : content := mkContent k None (match k with Optional => false | _ => true end).
(** A pointer that owns an object with such pointers as members, or any other. *)
Inductive item := Leaf (c : content) | Holds (k : kind) (id : nat) (members : list item).
Definition top (x : item) : content :=
  match x with Leaf c => c | Holds k id _ => mkContent k (Some id) true end.
Definition kindOf (x : item) : kind := cKind (top x).
Definition asKind (k : kind) (x : item) : item :=
  match x with Leaf c => Leaf (mkContent k (cId c) true) | Holds _ id l => Holds k id l end.

(** The objects in a tree, in the order in which they are destroyed: an object before its members, the last
    member first. *)
Fixpoint order (x : item) : list nat :=
  match x with
  | Leaf _ => []
  | Holds _ id l => id :: (fix back l := match l with [] => [] | x :: l => back l ++ order x end) l
  end.
Fixpoint orders (l : list item) : list nat := match l with [] => [] | x :: l => orders l ++ order x end.

(** The pointer at v->x->y. *)
Fixpoint get (p : list nat) (l : list item) : option item :=
  match p with
  | [] => None
  | n :: q =>
    match nth_error l n with
    | None => None
    | Some x => match q, x with [], _ => Some x | _, Holds _ _ l => get q l | _, _ => None end
    end
  end.
Fixpoint set (p : list nat) (y : item) (l : list item) : list item :=
  match p with
  | [] => l
  | n :: q =>
    match nth_error l n with
    | None => l
    | Some x =>
      match q, x with
      | [], _ => upd n y l
      | _, Holds k id l' => upd n (Holds k id (set q y l')) l
      | _, _ => l
      end
    end
  end.
(** q is inside of what p owns. *)
Definition inside (q p : list nat) : Prop := exists s, s <> [] /\ q = p ++ s.
(** An assignment is not from one pointer to the same (for pointers that do not own, the objects must be there). *)
Definition differ (l : list item) (old new : content) : Prop :=
  (cId old = None /\ cOwns old = false) \/ cOwns old <> cOwns new \/
  (cId old <> cId new /\ forall i, cId old = Some i \/ cId new = Some i -> In i (orders l)).

(** What the commands do to the variables [l], the number of objects made and the list of those destroyed. *)
Inductive does : list item -> nat -> list nat -> cmd -> list (option nat) -> list item -> nat -> list nat -> Prop :=
| d_begin l n g k : k <> Func -> does l n g (Begin k) [] (l ++ [Leaf (nothing k)]) n g
| d_end l x n g : does (l ++ [x]) n g End [] l n (g ++ order x)
| d_make l n g p ks old : get p l = Some old -> kindOf old = Owning -> ~ In Func ks ->
    does l n g (Make p ks) [] (set p (Holds Owning n (map (fun k => Leaf (nothing k)) ks)) l) (S n) (g ++ order old)
| d_assign l n g p q x old : get p l = Some old -> get q l = Some x -> kindOf old = Owning -> kindOf x = Owning ->
    p <> q -> ~ inside p q -> ~ inside q p ->
    does l n g (Assign p q) [] (set p x (set q (Leaf (nothing Owning)) l)) n (g ++ order old)
| d_optional l n g p q x old : get p l = Some old -> get q l = Some x -> kindOf old = Optional -> kindOf x = Optional ->
    p <> q -> ~ inside p q -> ~ inside q p -> differ l (top old) (top x) ->
    does l n g (Assign p q) [] (set p x (set q (Leaf (nothing Optional)) l)) n (g ++ order old)
| d_hand l n g p q x l1 old : get q l = Some x -> l1 = set q (Leaf (nothing Owning)) l -> get p l1 = Some old ->
    kindOf old = Optional -> kindOf x = Owning -> ~ inside p q -> differ l (top old) (top (asKind Optional x)) ->
    does l n g (Hand p q) [] (set p (asKind Optional x) l1) n (g ++ order old)
| d_raw l n g p q x l1 old : get q l = Some x -> l1 = set q (Leaf (nothing Owning)) l -> get p l1 = Some old ->
    kindOf old = Owning -> kindOf x = Owning -> ~ inside p q ->
    does l n g (Raw p q) [] (set p x l1) n (g ++ order old)
| d_borrow l n g p q x old : get p l = Some old -> get q l = Some x -> kindOf old = Optional ->
    differ l (top old) (mkContent Optional (cId (top x)) false) ->
    does l n g (Borrow p q) [] (set p (Leaf (mkContent Optional (cId (top x)) false)) l) n (g ++ order old)
| d_clear l n g p old : get p l = Some old -> kindOf old = Owning ->
    does l n g (Clear p) [] (set p (Leaf (nothing Owning)) l) n (g ++ order old)
| d_look l n g p x : get p l = Some x -> (forall i, cId (top x) = Some i -> In i (orders l)) ->
    does l n g (Look p) [cId (top x)] l n g.
Inductive doesAll : list item -> nat -> list nat -> list cmd -> list (option nat) -> list item -> nat -> list nat -> Prop :=
| da_nil l n g : doesAll l n g [] [] l n g
| da_cons l n g c o l1 n1 g1 cs o' l2 n2 g2 :
    does l n g c o l1 n1 g1 -> doesAll l1 n1 g1 cs o' l2 n2 g2 -> doesAll l n g (c :: cs) (o ++ o') l2 n2 g2.
