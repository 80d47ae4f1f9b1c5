(* A pool as a finite map from indices to items. *)
From Verif Require Export Base PoolModel.

Section PSpec.
Context {A : Type}.
Definition fmap := nat -> option A.
Definition empty : fmap := fun _ => None.
Definition put (m : fmap) (i : nat) (x : option A) : fmap := fun j => if (i =? j)%nat then x else m j.

(** [l] lists exactly the allocated items with their indices, in increasing index order. *)
Definition lists (m : fmap) (l : list (nat * A)) : Prop :=
  StronglySorted lt (map fst l) /\ forall i x, In (i, x) l <-> m i = Some x.

(** What an operation may answer, and the map afterwards. A new item may get any index not in use. *)
Inductive spec_step (m : fmap) : @op A -> @out A -> fmap -> Prop :=
| sp_new x i : m i = None -> spec_step m (New x) (Index i) (put m i (Some x))
| sp_del i : spec_step m (Del i) Done (put m i None)
| sp_get i x : m i = Some x -> spec_step m (Get i) (Value x) m
| sp_set i x : spec_step m (Set_ i x) Done (put m i (Some x))
| sp_iter l : lists m l -> spec_step m Iterate (Values l) m
| sp_clear l : lists m l -> spec_step m Clear (Values l) empty.

Inductive spec_run : fmap -> list (@op A) -> list (@out A) -> fmap -> Prop :=
| sr_nil m : spec_run m [] [] m
| sr_cons m o y m1 os ys m2 :
    spec_step m o y m1 -> spec_run m1 os ys m2 -> spec_run m (o :: os) (y :: ys) m2.

(** When the operation may be called. *)
Definition allowed (m : fmap) (o : @op A) : Prop :=
  match o with
  | New _ => exists i, Z.of_nat i < 2 ^ 31 - 1 /\ m i = None     (* room for another item *)
  | Del i | Get i | Set_ i _ => m i <> None
  | Iterate | Clear => True
  end.
End PSpec.
