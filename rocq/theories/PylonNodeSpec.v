(* What an object node must do: a list of items in the order in which their keys were first set, and the same said about
   the history of calls alone. *)
From Coq Require Export Sorting.Sorted.
From Verif Require Export PylonNodeModel.

Section NSpec.
Context {A : Type}.
Notation items := (list (list Z * A)).

Definition has (l : items) (k : list Z) : Prop := exists v, In (k, v) l.

Inductive nspec : items -> nop A -> nout A -> items -> Prop :=
| ns_get l k v : In (k, v) l -> nspec l (Get k) (Got (Some v)) l
| ns_get_none l k : ~ has l k -> nspec l (Get k) (Got None) l
| ns_replace l1 k v0 l2 v : nspec (l1 ++ (k, v0) :: l2) (Set_ k v) Done (l1 ++ (k, v) :: l2)
| ns_append l k v : ~ has l k -> nspec l (Set_ k v) Done (l ++ [(k, v)])
| ns_remove l1 k v l2 : nspec (l1 ++ (k, v) :: l2) (Remove k) (Removed (Some v)) (l1 ++ l2)
| ns_remove_none l k : ~ has l k -> nspec l (Remove k) (Removed None) l
| ns_list l : nspec l List (Listing l) l.

Inductive nspec_run : items -> list (nop A) -> list (nout A) -> items -> Prop :=
| nr_nil l : nspec_run l [] [] l
| nr_cons l o y l' os ys l'' : nspec l o y l' -> nspec_run l' os ys l'' -> nspec_run l (o :: os) (y :: ys) l''.

(** The key handed to a call; a string view counts its bytes in 32 bits. *)
Definition op_key (o : nop A) : list Z := match o with Get k | Set_ k _ | Remove k => k | List => [] end.
Definition keys_ok (os : list (nop A)) : Prop := Forall (fun o => zlen (op_key o) < 2 ^ 32) os.
(** Starting with the items [l], there are never more than [n] items while [os] is carried out. *)
Definition never_more (n : Z) (l : items) (os : list (nop A)) : Prop :=
  forall before later ys l', os = before ++ later -> nspec_run l before ys l' -> zlen l' <= n.

(** About the calls [os] before a point: [v] was set last under [k] and [k] was not removed since. *)
Definition last_set (os : list (nop A)) (k : list Z) (v : A) : Prop :=
  exists i, nth_error os i = Some (Set_ k v) /\
    forall j o, (i < j)%nat -> nth_error os j = Some o -> o <> Remove k /\ forall v', o <> Set_ k v'.
(** Call [i] is the first that set [k] since [k] was last removed. *)
Definition first_set (os : list (nop A)) (k : list Z) (i : nat) : Prop :=
  (exists v, nth_error os i = Some (Set_ k v)) /\
  (forall j, (i < j)%nat -> nth_error os j <> Some (Remove k)) /\
  (forall j v, (j < i)%nat -> nth_error os j = Some (Set_ k v) -> exists m, (j < m < i)%nat /\ nth_error os m = Some (Remove k)).

(** The items: every key with its last value, in the order of the first calls. *)
Definition describes (os : list (nop A)) (l : items) : Prop :=
  (forall k v, In (k, v) l <-> last_set os k v) /\
  exists at_call, (forall k, has l k -> first_set os k (at_call k)) /\
    StronglySorted (fun k k' => (at_call k < at_call k')%nat) (map fst l).

Definition answer_ok (before : list (nop A)) (o : nop A) (y : nout A) : Prop :=
  match o with
  | Get k => exists r, y = Got r /\ forall v, r = Some v <-> last_set before k v
  | Set_ _ _ => y = Done
  | Remove k => exists r, y = Removed r /\ forall v, r = Some v <-> last_set before k v
  | List => exists l, y = Listing l /\ describes before l
  end.
(** Every answer is what the calls before it require. *)
Definition nhistory (os : list (nop A)) (ys : list (nout A)) : Prop :=
  length ys = length os /\
  forall i o y, nth_error os i = Some o -> nth_error ys i = Some y -> answer_ok (firstn i os) o y.
End NSpec.
