(* A finite map as a list of key-value pairs with distinct keys, and what each call must answer. *)
From Verif Require Export Base HashMapModel.

Section HSpec.
Context {K V : Type} (eqb : K -> K -> bool) (dflt : V).

Fixpoint lookup (m : list (K * V)) (k : K) : option V :=
  match m with [] => None | (k', v) :: r => if eqb k' k then Some v else lookup r k end.
Definition remove (m : list (K * V)) (k : K) : list (K * V) := filter (fun x => negb (eqb (fst x) k)) m.

(** The map after storing [v] under [k]. *)
Definition store (m : list (K * V)) (k : K) (v : V) : list (K * V) := (k, v) :: remove m k.

Inductive spec_step (m : list (K * V)) : @op K V -> @out K V -> list (K * V) -> Prop :=
| sp_touch_old k v : lookup m k = Some v -> spec_step m (Touch k) (Item true v) m
| sp_touch_new k : lookup m k = None -> spec_step m (Touch k) (Item false dflt) (store m k dflt)
| sp_assign k v : spec_step m (Assign k v)
    (Item (match lookup m k with Some _ => true | None => false end) v) (store m k v)
| sp_find k : spec_step m (Find k) (Lookup (lookup m k)) m
| sp_erase k : spec_step m (Erase k)
    (Erased (match lookup m k with Some _ => true | None => false end)) (remove m k)
| sp_count : spec_step m Count (Num (zlen m)) m
| sp_iter l : Permutation l m -> spec_step m Iterate (Items l) m.

Inductive spec_run : list (K * V) -> list (@op K V) -> list (@out K V) -> list (K * V) -> Prop :=
| sr_nil m : spec_run m [] [] m
| sr_cons m o y m1 os ys m2 :
    spec_step m o y m1 -> spec_run m1 os ys m2 -> spec_run m (o :: os) (y :: ys) m2.

(** The map the operations build, whatever they answer. *)
Definition after (m : list (K * V)) (o : @op K V) : list (K * V) :=
  match o with
  | Touch k => match lookup m k with Some _ => m | None => store m k dflt end
  | Assign k v => store m k v
  | Erase k => remove m k
  | Find _ | Count | Iterate => m
  end.

(** The map never holds more than [n] keys while [os] is carried out from [m]. *)
Fixpoint at_most (n : Z) (m : list (K * V)) (os : list (@op K V)) : Prop :=
  zlen m <= n /\ match os with [] => True | o :: os => at_most n (after m o) os end.
End HSpec.
