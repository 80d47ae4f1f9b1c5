(* Proofs about RefCountModel (C46). *)
From Coq Require Import Lia ZifyBool ZifyNat.
From Verif Require Import RefCountModel RefCountSpec.
Open Scope Z_scope.

(* ---- sums ---- *)
Definition zsum {A} (f : A -> Z) (l : list A) : Z := fold_right (fun x r => f x + r) 0 l.
Lemma zsum_app {A} (f : A -> Z) l r : zsum f (l ++ r) = zsum f l + zsum f r.
Proof. induction l as [|x l IH]; cbn [app zsum fold_right] in *; [reflexivity|]. unfold zsum in *. cbn. lia. Qed.
Lemma zsum_cons {A} (f : A -> Z) x l : zsum f (x :: l) = f x + zsum f l.
Proof. reflexivity. Qed.
Lemma zsum_upd {A} (f : A -> Z) l i x y : nth_error l i = Some y -> zsum f (upd l i x) = zsum f l - f y + f x.
Proof.
  revert i. induction l as [|z l IH]; intros [|i] H; cbn in H; try discriminate; cbn [upd]; rewrite !zsum_cons.
  - injection H as ->. lia.
  - rewrite (IH i H). lia.
Qed.
Lemma zsum_nonneg {A} (f : A -> Z) l : (forall x, In x l -> 0 <= f x) -> 0 <= zsum f l.
Proof. induction l as [|x l IH]; intros H; [cbn; lia|]. rewrite zsum_cons. pose proof (H x (or_introl eq_refl)). assert (0 <= zsum f l) by (apply IH; intros; apply H; right; assumption). lia. Qed.
Lemma zsum_ge {A} (f : A -> Z) l x : (forall y, In y l -> 0 <= f y) -> In x l -> f x <= zsum f l.
Proof.
  intros H Hx. apply in_split in Hx. destruct Hx as (a & b & ->). rewrite zsum_app, zsum_cons.
  assert (0 <= zsum f a) by (apply zsum_nonneg; intros; apply H, in_or_app; auto). assert (0 <= zsum f b) by (apply zsum_nonneg; intros; apply H, in_or_app; right; right; assumption). lia.
Qed.
Lemma zsum_zero {A} (f : A -> Z) l : (forall x, In x l -> f x = 0) -> zsum f l = 0.
Proof. induction l as [|x l IH]; intros H; [reflexivity|]. rewrite zsum_cons, (H x (or_introl eq_refl)), IH; [reflexivity|]. intros; apply H; right; assumption. Qed.
Lemma zsum_pos {A} (f : A -> Z) l : 0 < zsum f l -> exists x, In x l /\ 0 < f x.
Proof.
  induction l as [|x l IH]; cbn; [lia|]. intros H. destruct (Z_lt_dec 0 (f x)); [exists x; auto|]. destruct IH as (y & Hy & P); [unfold zsum; lia|]. exists y. auto.
Qed.
Lemma in_upd {A} (l : list A) i x y : In y (upd l i x) -> y = x \/ In y l.
Proof. revert i. induction l as [|z l IH]; intros [|i]; cbn; [tauto|tauto|intros [->|H]; auto|]. intros [->|H]; [auto|]. apply IH in H. tauto. Qed.

Definition ind (x : option nat) (p : nat) : Z := match x with Some q => if (q =? p)%nat then 1 else 0 | None => 0 end.
Definition occ (p : nat) (l : list (option nat)) : Z := zsum (fun x => ind x p) l.
Lemma ind_range x p : 0 <= ind x p <= 1.
Proof. destruct x as [q|]; cbn; [destruct (q =? p)%nat; lia|lia]. Qed.
Lemma occ_nonneg p l : 0 <= occ p l.
Proof. apply zsum_nonneg. intros. apply ind_range. Qed.
Lemma occ_in p l : In (Some p) l -> 1 <= occ p l.
Proof. intros H. pose proof (zsum_ge (fun x => ind x p) l (Some p) (fun y _ => proj1 (ind_range y p)) H) as G. cbn in G. rewrite Nat.eqb_refl in G. exact G. Qed.
Lemma occ_pos p l : 0 < occ p l -> In (Some p) l.
Proof. intros H. apply zsum_pos in H. destruct H as ([q|] & H & P); cbn in P; [|lia]. destruct (Nat.eqb_spec q p); [subst; exact H|lia]. Qed.
Lemma nth_err {A} (l : list A) i (d x : A) : nth_error l i = Some x -> nth i l d = x.
Proof. revert i. induction l as [|y l IH]; intros [|i] H; cbn in *; try discriminate; [congruence|auto]. Qed.
Lemma nth_err_lt {A} (l : list A) i (d : A) : (i < length l)%nat -> nth_error l i = Some (nth i l d).
Proof. revert i. induction l as [|y l IH]; intros [|i] H; cbn in *; try lia; [reflexivity|]. apply IH. lia. Qed.
Lemma occ_upd p l i x : (i < length l)%nat -> occ p (upd l i x) = occ p l - ind (nth i l None) p + ind x p.
Proof. intros H. unfold occ. rewrite (zsum_upd _ l i x (nth i l None)) by (apply nth_err_lt; exact H). reflexivity. Qed.
Lemma occ_slot p l i : ind (nth i l None) p <= occ p l.
Proof.
  destruct (lt_dec i (length l)) as [H|H].
  - apply (zsum_ge (fun x => ind x p) l (nth i l None) (fun y _ => proj1 (ind_range y p))). apply nth_In. exact H.
  - rewrite nth_overflow by lia. apply occ_nonneg.
Qed.
Lemma nth_upd_d {A} (l : list A) i j x (d : A) : (i < length l)%nat -> nth j (upd l i x) d = if (i =? j)%nat then x else nth j l d.
Proof.
  intros H. destruct (lt_dec j (length l)) as [Hj|Hj].
  - apply nth_err. rewrite nth_upd. destruct (Nat.eqb_spec i j) as [->|]; [destruct (Nat.ltb_spec j (length l)); [reflexivity|lia]|]. apply nth_err_lt. exact Hj.
  - destruct (Nat.eqb_spec i j); [lia|]. rewrite !nth_overflow by (rewrite ?upd_length; lia). reflexivity.
Qed.

(* ---- the weights ---- *)
(** What the pending action adds to the references its thread stands for. *)
Definition aw (sl : list (option nat)) (p : nat) (a : act) : Z :=
  match a with
  | Inc q => - ind (Some q) p
  | Dec q => ind (Some q) p
  | Zero _ => 0
  | Null i | Tail i _ | TailField i _ _ => - ind (nth i sl None) p
  end.
Definition tw (p : nat) (th : thr) : Z := occ p (slots th) + zsum (aw (slots th) p) (pend th).
Definition ow (p : nat) (o : obj) : Z := if dead o then 0 else occ p (fields o).
Definition total (s : state) (p : nat) : Z := zsum (tw p) (thrs s) + zsum (ow p) (objs s).
Definition za (p : nat) (a : act) : Z := match a with Zero q => ind (Some q) p | _ => 0 end.
Definition zth (p : nat) (th : thr) : Z := zsum (za p) (pend th).
Definition zall (s : state) (p : nat) : Z := zsum (zth p) (thrs s).

Definition isdrop (a : act) : Prop := match a with Dec _ | Zero _ => True | _ => False end.
Definition closing (n : nat) (b : list act) : Prop :=
  b = [] \/ (exists i, (i < n)%nat /\ b = [Null i]) \/ (exists d x, (d < n)%nat /\ (x < n)%nat /\ b = [Tail d x]).
(** A reference that is about to be counted is already kept by another one. *)
Definition supported (os : list obj) (th : thr) (p : nat) : Prop :=
  1 <= tw p th \/ exists q o, 1 <= tw q th /\ nth_error os q = Some o /\ In (Some p) (fields o).
Definition shape (os : list obj) (th : thr) : Prop :=
  (exists p old, pend th = Inc p :: dec old /\ In (Some p) (slots th) /\ supported os th p) \/
  (exists a b, pend th = a ++ b /\ Forall isdrop a /\ closing (length (slots th)) b).
Definition aok (n : nat) (a : act) : Prop := match a with Inc p | Dec p | Zero p => (p < n)%nat | _ => True end.
Definition range (n : nat) (th : thr) : Prop := (forall p, In (Some p) (slots th) -> (p < n)%nat) /\ Forall (aok n) (pend th).

Definition okobj (s : state) (p : nat) (o : obj) : Prop :=
  count o = total s p /\ zall s p = (if dead o then 0 else if (count o =? 0) then 1 else 0) /\
  (dead o = true -> count o = 0 /\ zeros o = 1%nat) /\ (dead o = false -> zeros o = 0%nat).
Record inv (s : state) : Prop := mkinv {
  i_obj : forall p o, nth_error (objs s) p = Some o -> okobj s p o;
  i_thr : forall t th, nth_error (thrs s) t = Some th -> shape (objs s) th /\ range (length (objs s)) th;
  i_old : forall p o q, nth_error (objs s) p = Some o -> In (Some q) (fields o) -> (q < p)%nat }.

Lemma drops_nonneg sl p a : Forall isdrop a -> 0 <= zsum (aw sl p) a.
Proof.
  intros F. apply zsum_nonneg. intros x Hx. rewrite Forall_forall in F. specialize (F x Hx). destruct x as [q|q|q|i|d x|d q j]; cbn in *; try contradiction; [|lia].
  destruct (q =? p)%nat; lia.
Qed.
Lemma closing_weight sl p b : closing (length sl) b -> - occ p sl <= zsum (aw sl p) b.
Proof.
  intros [->|[(i & _ & ->)|(d & x & _ & _ & ->)]]; cbn [zsum fold_right aw].
  - pose proof (occ_nonneg p sl). lia.
  - pose proof (occ_slot p sl i). lia.
  - pose proof (occ_slot p sl d). lia.
Qed.
Lemma tw_nonneg os th p : shape os th -> 0 <= tw p th.
Proof.
  unfold tw. intros [(q & old & E & I & _)|(a & b & E & F & C)]; rewrite E.
  - rewrite zsum_cons. cbn [aw]. pose proof (ind_range (Some q) p). destruct (Nat.eq_dec q p) as [->|N].
    + apply occ_in in I. destruct old as [r|]; cbn [dec zsum fold_right aw]; [pose proof (ind_range (Some r) p)|]; lia.
    + assert (E0 : ind (Some q) p = 0) by (cbn; destruct (Nat.eqb_spec q p); [contradiction|reflexivity]). pose proof (occ_nonneg p (slots th)).
      destruct old as [r|]; cbn [dec zsum fold_right aw]; [pose proof (ind_range (Some r) p)|]; lia.
  - rewrite zsum_app. pose proof (drops_nonneg (slots th) p a F). pose proof (closing_weight (slots th) p b C). lia.
Qed.
Lemma tw_dec os th p rest : shape os th -> pend th = Dec p :: rest -> 1 <= tw p th.
Proof.
  unfold tw. intros [(q & old & E & I & _)|(a & b & E & F & C)] Ep; rewrite Ep in *; [discriminate|].
  destruct a as [|x a].
  - cbn in E. destruct C as [->|[(i & _ & ->)|(d & y & _ & _ & ->)]]; discriminate.
  - cbn [app] in E. injection E as <- ->. inversion F as [|? ? _ F']; subst. rewrite zsum_cons, zsum_app. cbn [aw].
    pose proof (drops_nonneg (slots th) p a F'). pose proof (closing_weight (slots th) p b C). cbn [ind]. rewrite Nat.eqb_refl. lia.
Qed.
Lemma ow_nonneg p o : 0 <= ow p o.
Proof. unfold ow. destruct (dead o); [lia|apply occ_nonneg]. Qed.

Section Inv.
Variable s : state.
Hypothesis H : inv s.

Lemma tw_in th p : In th (thrs s) -> 0 <= tw p th.
Proof. intros Hi. apply In_nth_error in Hi. destruct Hi as (t & Ht). apply (tw_nonneg (objs s)). apply (i_thr s H t th Ht). Qed.
Lemma total_ge_thread t th p : nth_error (thrs s) t = Some th -> tw p th <= total s p.
Proof.
  intros Ht. unfold total. assert (0 <= zsum (ow p) (objs s)) by (apply zsum_nonneg; intros; apply ow_nonneg).
  pose proof (zsum_ge (tw p) (thrs s) th (fun y Hy => tw_in y p Hy) (nth_error_In _ _ Ht)). lia.
Qed.
Lemma total_ge_obj q o p : nth_error (objs s) q = Some o -> ow p o <= total s p.
Proof.
  intros Ho. unfold total. assert (0 <= zsum (tw p) (thrs s)) by (apply zsum_nonneg; intros; apply tw_in; assumption).
  pose proof (zsum_ge (ow p) (objs s) o (fun y _ => ow_nonneg p y) (nth_error_In _ _ Ho)). lia.
Qed.
Lemma total_nonneg p : 0 <= total s p.
Proof. unfold total. assert (0 <= zsum (tw p) (thrs s)) by (apply zsum_nonneg; intros; apply tw_in; assumption). assert (0 <= zsum (ow p) (objs s)) by (apply zsum_nonneg; intros; apply ow_nonneg). lia. Qed.
Lemma pos_alive p o : nth_error (objs s) p = Some o -> 1 <= total s p -> dead o = false.
Proof. intros Ho Hp. destruct (i_obj s H p o Ho) as (C & _ & D & _). destruct (dead o); [|reflexivity]. destruct (D eq_refl). lia. Qed.

Lemma tw_range t th p : nth_error (thrs s) t = Some th -> (length (objs s) <= p)%nat -> tw p th = 0.
Proof.
  intros Ht Hp. destruct (i_thr s H t th Ht) as (_ & Rs & Ra). unfold tw. rewrite Forall_forall in Ra.
  assert (Eo : occ p (slots th) = 0). { destruct (Z_lt_dec 0 (occ p (slots th))) as [G|G]; [apply occ_pos, Rs in G; lia|]. pose proof (occ_nonneg p (slots th)). lia. }
  rewrite Eo. rewrite zsum_zero; [reflexivity|]. intros a Ha. specialize (Ra a Ha). 
  assert (Es : forall i, ind (nth i (slots th) None) p = 0) by (intros i; pose proof (occ_slot p (slots th) i); pose proof (ind_range (nth i (slots th) None) p); lia).
  destruct a as [q|q|q|i|d x|d q j]; cbn [aw aok] in *; rewrite ?Es; try lia; cbn; destruct (Nat.eqb_spec q p); lia.
Qed.
Lemma total_fresh p : (length (objs s) <= p)%nat -> total s p = 0.
Proof.
  intros Hp. unfold total. rewrite !zsum_zero; [reflexivity| |].
  - intros o Ho. unfold ow. destruct (dead o); [reflexivity|]. destruct (Z_lt_dec 0 (occ p (fields o))) as [G|G]; [|pose proof (occ_nonneg p (fields o)); lia].
    apply occ_pos in G. apply In_nth_error in Ho. destruct Ho as (q & Hq). pose proof (i_old s H q o p Hq G). apply nth_lt in Hq. lia.
  - intros th Hth. apply In_nth_error in Hth. destruct Hth as (t & Ht). apply (tw_range t th p Ht Hp).
Qed.
Lemma zall_fresh p : (length (objs s) <= p)%nat -> zall s p = 0.
Proof.
  intros Hp. apply zsum_zero. intros th Hth. apply In_nth_error in Hth. destruct Hth as (t & Ht). apply zsum_zero. intros a Ha.
  destruct (i_thr s H t th Ht) as (_ & _ & Ra). rewrite Forall_forall in Ra. specialize (Ra a Ha). destruct a; cbn in *; try reflexivity. destruct (Nat.eqb_spec p0 p); [lia|reflexivity].
Qed.

(** Handles can be used. *)
Lemma idle_tw th p : pend th = [] -> tw p th = occ p (slots th).
Proof. unfold tw. intros ->. cbn. lia. Qed.
Lemma held_total p : held s p -> 1 <= total s p.
Proof. intros (t & th & Ht & E & I). pose proof (total_ge_thread t th p Ht). rewrite (idle_tw th p E) in H0. apply occ_in in I. lia. Qed.
Lemma held_known p : held s p -> exists o, nth_error (objs s) p = Some o.
Proof. intros (t & th & Ht & E & I). destruct (i_thr s H t th Ht) as (_ & Rs & _). specialize (Rs p I). destruct (nth_error (objs s) p) eqn:Eo; [eauto|]. apply nth_error_None in Eo. lia. Qed.
Lemma held_alive p : held s p -> alive s p.
Proof. intros Hh. destruct (held_known p Hh) as (o & Ho). exists o. split; [exact Ho|]. apply (pos_alive p o Ho). apply held_total. exact Hh. Qed.
Lemma inside_alive q p : inside s q p -> alive s p.
Proof.
  intros (o & Ho & D & I). pose proof (i_old s H q o p Ho I) as L. apply nth_lt in Ho as Hq. destruct (nth_error (objs s) p) as [o'|] eqn:Eo; [|apply nth_error_None in Eo; lia].
  exists o'. split; [exact Eo|]. apply (pos_alive p o' Eo). pose proof (total_ge_obj q o p Ho) as G. unfold ow in G. rewrite D in G. apply occ_in in I. lia.
Qed.
Lemma supported_total t th p : nth_error (thrs s) t = Some th -> supported (objs s) th p -> 1 <= total s p.
Proof.
  intros Ht [G|(q & o & G & Ho & I)]; [pose proof (total_ge_thread t th p Ht); lia|].
  assert (D : dead o = false) by (apply (pos_alive q o Ho); pose proof (total_ge_thread t th q Ht); lia).
  pose proof (total_ge_obj q o p Ho) as K. unfold ow in K. rewrite D in K. apply occ_in in I. lia.
Qed.
End Inv.

(* ---- every step keeps the invariant ---- *)
Definition stable (os os' : list obj) : Prop := forall q o, nth_error os q = Some o -> exists o', nth_error os' q = Some o' /\ fields o' = fields o.
Lemma stable_refl os : stable os os.
Proof. intros q o Hq. eauto. Qed.
Lemma stable_upd os p o o' : nth_error os p = Some o -> fields o' = fields o -> stable os (upd os p o').
Proof.
  intros Hp F q x Hq. rewrite nth_upd. destruct (Nat.eqb_spec p q) as [->|N]; [|eauto]. rewrite Hp in Hq. injection Hq as <-.
  destruct (Nat.ltb_spec q (length os)); [eauto|]. apply nth_lt in Hp. lia.
Qed.
Lemma stable_app os l : stable os (os ++ l).
Proof. intros q o Hq. exists o. split; [|reflexivity]. rewrite nth_error_app1; [exact Hq|]. apply nth_lt in Hq. exact Hq. Qed.
Lemma stable_length os os' : stable os os' -> (length os <= length os')%nat.
Proof.
  intros S. destruct (le_lt_dec (length os) (length os')) as [L|L]; [exact L|]. destruct (nth_error os (length os')) as [o|] eqn:E; [|apply nth_error_None in E; lia].
  destruct (S _ _ E) as (o' & E' & _). apply nth_lt in E'. lia.
Qed.
Lemma supported_stable os os' th p : stable os os' -> supported os th p -> supported os' th p.
Proof. intros S [G|(q & o & G & Ho & I)]; [left; exact G|right]. destruct (S q o Ho) as (o' & Ho' & F). exists q, o'. rewrite F. auto. Qed.
Lemma shape_stable os os' th : stable os os' -> shape os th -> shape os' th.
Proof. intros S [(p & old & E & I & Sp)|X]; [left|right; exact X]. exists p, old. split; [exact E|]. split; [exact I|]. apply (supported_stable os); assumption. Qed.
Lemma range_le n m th : (n <= m)%nat -> range n th -> range m th.
Proof. intros L (A & B). split; [intros p Hp; apply A in Hp; lia|]. eapply Forall_impl; [|exact B]. intros a. destruct a; cbn; lia. Qed.

Lemma inv_step s t th os' th' : inv s -> nth_error (thrs s) t = Some th -> let s' := mkst os' (upd (thrs s) t th') in
  stable (objs s) os' -> shape os' th' -> range (length os') th' ->
  (forall p o, nth_error os' p = Some o -> okobj s' p o) ->
  (forall p o q, nth_error os' p = Some o -> In (Some q) (fields o) -> (q < p)%nat) -> inv s'.
Proof.
  intros H Ht s' St Sh Ra Ok Old. constructor; [exact Ok| |exact Old]. intros u x Hu. cbn [thrs s'] in Hu. rewrite nth_upd in Hu. destruct (Nat.eqb_spec t u) as [->|N].
  - destruct (Nat.ltb_spec u (length (thrs s))); [|discriminate]. injection Hu as <-. auto.
  - destruct (i_thr s H u x Hu) as (A & B). split; [apply (shape_stable (objs s)); assumption|]. apply (range_le (length (objs s))); [apply stable_length, St|exact B].
Qed.
Lemma total_step s t th os' th' p : nth_error (thrs s) t = Some th ->
  total (mkst os' (upd (thrs s) t th')) p = total s p - tw p th + tw p th' + (zsum (ow p) os' - zsum (ow p) (objs s)).
Proof. intros Ht. unfold total. cbn [thrs objs]. rewrite (zsum_upd _ _ _ th' th Ht). lia. Qed.
Lemma zall_step s t th os' th' p : nth_error (thrs s) t = Some th -> zall (mkst os' (upd (thrs s) t th')) p = zall s p - zth p th + zth p th'.
Proof. intros Ht. unfold zall. cbn [thrs]. rewrite (zsum_upd _ _ _ th' th Ht). lia. Qed.
(** A step that touches only the handles and the actions of one thread, without changing what it stands for. *)
Lemma inv_local s t th th' : inv s -> nth_error (thrs s) t = Some th -> shape (objs s) th' -> range (length (objs s)) th' ->
  (forall p, tw p th' = tw p th) -> (forall p, zth p th' = zth p th) -> inv (set_thr s t th').
Proof.
  intros H Ht Sh Ra Ew Ez. unfold set_thr. apply (inv_step s t th); auto; [apply stable_refl| |apply (i_old s H)].
  intros p o Ho. unfold okobj. rewrite (total_step s t th) by exact Ht. rewrite (zall_step s t th) by exact Ht. rewrite Ew, Ez.
  destruct (i_obj s H p o Ho) as (C & Z & D & N). split; [lia|]. split; [rewrite <- Z; lia|auto].
Qed.
Lemma old_upd s p o o' : inv s -> nth_error (objs s) p = Some o -> fields o' = fields o ->
  forall r x q, nth_error (upd (objs s) p o') r = Some x -> In (Some q) (fields x) -> (q < r)%nat.
Proof.
  intros H Ho F r x q Hx Hq. rewrite nth_upd in Hx. destruct (Nat.eqb_spec p r) as [->|N]; [|apply (i_old s H r x q Hx Hq)].
  destruct (Nat.ltb_spec r (length (objs s))); [|discriminate]. injection Hx as <-. rewrite F in Hq. apply (i_old s H r o q Ho Hq).
Qed.
Lemma ow_upd_same os p o o' q : nth_error os p = Some o -> fields o' = fields o -> dead o' = dead o -> zsum (ow q) (upd os p o') = zsum (ow q) os.
Proof. intros Ho F D. rewrite (zsum_upd _ _ _ o' o Ho). unfold ow. rewrite F, D. lia. Qed.

Lemma ind_eq q p : ind (Some q) p = if (q =? p)%nat then 1 else 0.
Proof. reflexivity. Qed.

(** The first action removed. *)
Lemma shape_rest os sl a rest : isdrop a -> shape os (mkthr sl (a :: rest)) -> exists x b, rest = x ++ b /\ Forall isdrop x /\ closing (length sl) b.
Proof.
  intros D [(p & old & E & _)|(x & b & E & F & C)]; cbn [pend slots] in *.
  - injection E as -> _. contradiction.
  - destruct x as [|y x]; cbn [app] in E.
    + destruct C as [->|[(i & _ & ->)|(d & y & _ & _ & ->)]]; try discriminate; injection E as -> _; contradiction.
    + injection E as <- ->. inversion F; subst. eauto.
Qed.
Lemma range_tl n sl a rest : range n (mkthr sl (a :: rest)) -> range n (mkthr sl rest).
Proof. intros (A & B). split; [exact A|]. inversion B; assumption. Qed.
Lemma decs_weight sl p l : zsum (aw sl p) (decs l) = occ p l.
Proof. induction l as [|[q|] l IH]; cbn [decs flat_map app]; [reflexivity| |exact IH]. unfold occ. rewrite !zsum_cons. cbn [aw]. fold (decs l). rewrite IH. reflexivity. Qed.
Lemma decs_zero p l : zsum (za p) (decs l) = 0.
Proof. induction l as [|[q|] l IH]; cbn [decs flat_map app]; [reflexivity| |exact IH]. rewrite zsum_cons. cbn [za]. fold (decs l). lia. Qed.
Lemma decs_drops l : Forall isdrop (decs l).
Proof. induction l as [|[q|] l IH]; cbn [decs flat_map app]; [constructor|constructor; [exact I|exact IH]|exact IH]. Qed.
Lemma decs_in l a : In a (decs l) -> exists p, a = Dec p /\ In (Some p) l.
Proof. unfold decs. rewrite in_flat_map. intros ([p|] & A & B); [|destruct B]. destruct B as [<-|[]]. eauto. Qed.

Lemma go_keeps s t th : inv s -> nth_error (thrs s) t = Some th ->
  match go s t th with Moved s' => inv s' | Bad => False | _ => True end.
Proof.
  intros H Ht. destruct th as [sl pd]. unfold go. cbn [slots pend]. destruct pd as [|a rest]; [exact I|].
  destruct (i_thr s H t _ Ht) as (Sh & Ra).
  destruct a as [p|p|p|i|d x|d p j].
  - (* incRef *)
    assert (Hs : exists old, rest = dec old /\ In (Some p) sl /\ supported (objs s) (mkthr sl (Inc p :: rest)) p).
    { destruct Sh as [(q & old & E & I & Sp)|(a & b & E & F & C)]; cbn [pend slots] in *.
      - injection E as <- ->. eauto.
      - exfalso. destruct a as [|y a]; cbn [app] in E; [destruct C as [->|[(i & _ & ->)|(d & y & _ & _ & ->)]]; discriminate|]. injection E as <- _. inversion F; contradiction. }
    destruct Hs as (old & -> & Ip & Sp). pose proof (supported_total s H t _ p Ht Sp) as Tp.
    unfold incRef. cbn [objs set_thr]. assert (Lp : (p < length (objs s))%nat) by (destruct Ra as (Rs & _); apply Rs; exact Ip).
    destruct (nth_error (objs s) p) as [o|] eqn:Ho; [|apply nth_error_None in Ho; lia].
    rewrite (pos_alive s H p o Ho Tp). destruct (i_obj s H p o Ho) as (C & Z & D & N). destruct (Z.ltb_spec (count o) 0); [lia|]. destruct (65535 <=? count o); [exact I|].
    unfold set_obj, set_thr. cbn [objs thrs].
    set (o' := mkobj (count o + 1) (fields o) false (zeros o)). pose proof (pos_alive s H p o Ho Tp) as Dp.
    apply (inv_step s t _ _ _ H Ht).
    + apply (stable_upd (objs s) p o o' Ho). reflexivity.
    + right. exists (dec old), []. cbn [pend slots]. rewrite app_nil_r. split; [reflexivity|]. split; [|left; reflexivity]. destruct old; repeat constructor.
    + rewrite upd_length. apply (range_tl _ _ _ _ Ra).
    + intros q x Hx. unfold okobj. rewrite (total_step s t _ _ _ q Ht), (zall_step s t _ _ _ q Ht). rewrite (ow_upd_same (objs s) p o o' q Ho) by (cbn; auto).
      assert (Ew : tw q (mkthr sl (dec old)) = tw q (mkthr sl (Inc p :: dec old)) + ind (Some p) q) by (unfold tw; cbn [slots pend]; rewrite zsum_cons; cbn [aw]; lia).
      assert (Ez : zth q (mkthr sl (dec old)) = zth q (mkthr sl (Inc p :: dec old))) by (unfold zth; cbn [pend]; rewrite zsum_cons; cbn [za]; lia).
      rewrite Ew, Ez, ind_eq. rewrite nth_upd in Hx. destruct (Nat.eqb_spec p q) as [<-|Npq].
      * destruct (Nat.ltb_spec p (length (objs s))); [|discriminate]. injection Hx as <-. cbn [o' count dead zeros fields]. split; [lia|]. rewrite Dp in Z. split; [|split; [discriminate|intros _; apply N, Dp]].
        destruct (Z.eqb_spec (count o) 0); [lia|]. destruct (Z.eqb_spec (count o + 1) 0); lia.
      * destruct (i_obj s H q x Hx) as (C' & Z' & D' & N'). split; [lia|]. split; [rewrite <- Z'; lia|auto].
    + apply (old_upd s p o o' H Ho). reflexivity.
  - (* decRef *)
    pose proof (tw_dec _ _ p rest Sh eq_refl) as Wp. pose proof (total_ge_thread s H t _ p Ht) as Tp.
    unfold decRef. assert (Lp : (p < length (objs s))%nat) by (destruct Ra as (_ & F); inversion F; assumption).
    destruct (nth_error (objs s) p) as [o|] eqn:Ho; [|apply nth_error_None in Ho; lia].
    assert (Dp : dead o = false) by (apply (pos_alive s H p o Ho); lia). rewrite Dp.
    destruct (i_obj s H p o Ho) as (C & Z & D & N). destruct (Z.ltb_spec (count o) 1); [lia|]. destruct (65535 <=? count o); [exact I|].
    unfold set_obj, set_thr. cbn [objs thrs]. set (o' := mkobj (count o - 1) (fields o) false (zeros o)).
    destruct (shape_rest _ _ (Dec p) rest I Sh) as (a & b & Er & Fa & Cb).
    apply (inv_step s t _ _ _ H Ht).
    + apply (stable_upd (objs s) p o o' Ho). reflexivity.
    + right. cbn [pend slots]. destruct (count o =? 1); [exists (Zero p :: a)|exists a]; exists b; subst rest; (split; [reflexivity|]); (split; [|exact Cb]); [constructor; [exact I|]|]; exact Fa.
    + rewrite upd_length. apply range_tl in Ra. destruct Ra as (A & B). split; [exact A|]. cbn [pend] in *. destruct (count o =? 1); [constructor; [exact Lp|exact B]|exact B].
    + intros q x Hx. unfold okobj. rewrite (total_step s t _ _ _ q Ht), (zall_step s t _ _ _ q Ht). rewrite (ow_upd_same (objs s) p o o' q Ho) by (cbn; auto).
      set (r := if count o =? 1 then Zero p :: rest else rest).
      assert (Ew : tw q (mkthr sl r) = tw q (mkthr sl (Dec p :: rest)) - ind (Some p) q) by (unfold tw, r; cbn [slots pend]; destruct (count o =? 1); rewrite !zsum_cons; cbn [aw]; lia).
      assert (Ez : zth q (mkthr sl r) = zth q (mkthr sl (Dec p :: rest)) + if count o =? 1 then ind (Some p) q else 0) by (unfold zth, r; cbn [pend]; destruct (count o =? 1); rewrite !zsum_cons; cbn [za]; lia).
      rewrite Ew, Ez, ind_eq. rewrite nth_upd in Hx. destruct (Nat.eqb_spec p q) as [<-|Npq].
      * destruct (Nat.ltb_spec p (length (objs s))); [|discriminate]. injection Hx as <-. cbn [o' count dead zeros fields]. split; [lia|]. rewrite Dp in Z. split; [|split; [discriminate|intros _; apply N, Dp]].
        destruct (Z.eqb_spec (count o) 0); [lia|]. destruct (Z.eqb_spec (count o) 1); destruct (Z.eqb_spec (count o - 1) 0); lia.
      * destruct (i_obj s H q x Hx) as (C' & Z' & D' & N'). split; [lia|]. split; [rewrite <- Z'; destruct (count o =? 1); lia|auto].
    + apply (old_upd s p o o' H Ho). reflexivity.
  - (* the callback *)
    unfold onRefCountZero. assert (Lp : (p < length (objs s))%nat) by (destruct Ra as (_ & F); inversion F; assumption).
    destruct (nth_error (objs s) p) as [o|] eqn:Ho; [|apply nth_error_None in Ho; lia].
    destruct (i_obj s H p o Ho) as (C & Z & D & N).
    assert (Zp : 1 <= zall s p).
    { unfold zall. assert (Hz : forall th, In th (thrs s) -> 0 <= zth p th). { intros th' _. unfold zth. apply zsum_nonneg. intros a _. destruct a; cbn; try lia. destruct (_ =? _)%nat; lia. }
      pose proof (zsum_ge (zth p) (thrs s) _ Hz (nth_error_In _ _ Ht)) as G. unfold zth at 1 in G. cbn [pend] in G. rewrite zsum_cons in G. cbn [za] in G. rewrite ind_eq, Nat.eqb_refl in G.
      assert (0 <= zsum (za p) rest) by (apply zsum_nonneg; intros a _; destruct a; cbn; try lia; destruct (_ =? _)%nat; lia). lia. }
    assert (Dp : dead o = false) by (destruct (dead o); [lia|reflexivity]). rewrite Dp in Z |- *. destruct (Z.eqb_spec (count o) 0) as [C0|]; [|lia].
    unfold set_obj, set_thr. cbn [objs thrs]. set (o' := mkobj (count o) (fields o) true (S (zeros o))).
    destruct (shape_rest _ _ (Zero p) rest I Sh) as (a & b & Er & Fa & Cb).
    apply (inv_step s t _ _ _ H Ht).
    + apply (stable_upd (objs s) p o o' Ho). reflexivity.
    + right. cbn [pend slots]. exists (decs (fields o) ++ a), b. subst rest. rewrite app_assoc. split; [reflexivity|]. split; [|exact Cb]. apply Forall_app. split; [apply decs_drops|exact Fa].
    + rewrite upd_length. apply range_tl in Ra. destruct Ra as (A & B). split; [exact A|]. cbn [pend] in *. apply Forall_app. split; [|exact B].
      apply Forall_forall. intros y Hy. apply decs_in in Hy. destruct Hy as (q & -> & Hq). cbn. pose proof (i_old s H p o q Ho Hq). lia.
    + intros q x Hx. unfold okobj. rewrite (total_step s t _ _ _ q Ht), (zall_step s t _ _ _ q Ht). rewrite (zsum_upd _ _ _ o' o Ho).
      assert (Ew : tw q (mkthr sl (decs (fields o) ++ rest)) = tw q (mkthr sl (Zero p :: rest)) + occ q (fields o)) by (unfold tw; cbn [slots pend]; rewrite zsum_app, zsum_cons, decs_weight; cbn [aw]; lia).
      assert (Ez : zth q (mkthr sl (decs (fields o) ++ rest)) = zth q (mkthr sl (Zero p :: rest)) - ind (Some p) q) by (unfold zth; cbn [pend]; rewrite zsum_app, zsum_cons, decs_zero; cbn [za]; lia).
      rewrite Ew, Ez, ind_eq. assert (Eo : ow q o = occ q (fields o)) by (unfold ow; rewrite Dp; reflexivity). assert (Eo' : ow q o' = 0) by reflexivity. rewrite Eo, Eo'.
      rewrite nth_upd in Hx. destruct (Nat.eqb_spec p q) as [<-|Npq].
      * destruct (Nat.ltb_spec p (length (objs s))); [|discriminate]. injection Hx as <-. cbn [o' count dead zeros fields]. split; [lia|]. split; [lia|]. split; [|discriminate]. intros _. split; [exact C0|]. rewrite (N Dp). reflexivity.
      * destruct (i_obj s H q x Hx) as (C' & Z' & D' & N'). split; [lia|]. split; [rewrite <- Z'; lia|auto].
    + apply (old_upd s p o o' H Ho). reflexivity.
  - (* this->ptr = nullptr *)
    assert (Hs : rest = [] /\ (i < length sl)%nat).
    { destruct Sh as [(q & old & E & _)|(a & b & E & F & C)]; cbn [pend slots] in *; [discriminate|].
      destruct a as [|y a]; cbn [app] in E; [|injection E as <- _; inversion F; contradiction].
      destruct C as [->|[(i' & L & ->)|(d & y & _ & _ & ->)]]; try discriminate. injection E as -> ->. auto. }
    destruct Hs as (-> & L). apply (inv_local s t _ _ H Ht).
    + right. exists [], []. split; [reflexivity|]. split; [constructor|left; reflexivity].
    + destruct Ra as (A & _). split; [|constructor]. cbn [slots] in *. intros p Hp. apply in_upd in Hp. destruct Hp as [Hp|Hp]; [discriminate|auto].
    + intros p. unfold tw. cbn [slots pend zsum fold_right aw]. rewrite occ_upd by exact L. cbn [ind]. lia.
    + intros p. reflexivity.
  - assert (Hs : rest = [] /\ (d < length sl)%nat /\ (x < length sl)%nat).
    { destruct Sh as [(q & old & E & _)|(a & b & E & F & C)]; cbn [pend slots] in *; [discriminate|].
      destruct a as [|y a]; cbn [app] in E; [|injection E as <- _; inversion F; contradiction].
      destruct C as [->|[(i' & L & ->)|(d' & y & L1 & L2 & ->)]]; try discriminate. injection E as -> -> ->. auto. }
    destruct Hs as (-> & Ld & Lx). apply (inv_local s t _ _ H Ht).
    + right. exists [], []. split; [reflexivity|]. split; [constructor|left; reflexivity].
    + destruct Ra as (A & _). split; [|constructor]. cbn [slots] in *. intros p Hp. apply in_upd in Hp. destruct Hp as [Hp|Hp]; [discriminate|]. apply in_upd in Hp. destruct Hp as [Hp|Hp]; [|auto].
      apply A. rewrite Hp. apply nth_In. exact Lx.
    + intros p. unfold tw. cbn [slots pend zsum fold_right aw]. rewrite occ_upd by (rewrite upd_length; exact Lx). rewrite occ_upd by exact Ld. rewrite nth_upd_d by exact Ld. cbn [ind].
      destruct (Nat.eqb_spec d x) as [->|]; lia.
    + intros p. reflexivity.
  - exfalso. destruct Sh as [(q & old & E & _)|(a & b & E & F & C)]; cbn [pend slots] in *; [discriminate|].
    destruct a as [|y a]; cbn [app] in E; [|injection E as <- _; inversion F; contradiction].
    destruct C as [->|[(i' & L & ->)|(d' & y & L1 & L2 & ->)]]; discriminate.
Qed.

(* ---- starting an operation ---- *)
Lemma take_spec l : forall sl f sl', take sl l = (f, sl') -> Forall (fun i => (i < length sl)%nat) l ->
  length sl' = length sl /\ (forall p, occ p f + occ p sl' = occ p sl) /\ (forall x, In (Some x) f \/ In (Some x) sl' -> In (Some x) sl).
Proof.
  induction l as [|i l IH]; intros sl f sl' E F; cbn [take] in E.
  - injection E as <- <-. split; [reflexivity|]. split; [intros p; reflexivity|]. intros x [[]|Hx]; exact Hx.
  - destruct (take (upd sl i None) l) as [f1 sl1] eqn:E1. injection E as <- <-. inversion F as [|? ? Li Fl]; subst.
    destruct (IH (upd sl i None) f1 sl1 E1) as (A & B & C). { eapply Forall_impl; [|exact Fl]. intros j. rewrite upd_length. auto. }
    rewrite upd_length in A. split; [exact A|]. split.
    + intros p. specialize (B p). rewrite occ_upd in B by exact Li. unfold occ in *. rewrite zsum_cons. cbn [ind] in B. lia.
    + intros x [[Hx|Hx]|Hx].
      * rewrite <- Hx. apply nth_In. exact Li.
      * destruct (in_upd sl i None (Some x)) as [G|G]; [apply C; auto|discriminate|exact G].
      * destruct (in_upd sl i None (Some x)) as [G|G]; [apply C; auto|discriminate|exact G].
Qed.
Lemma dec_weight sl p v : zsum (aw sl p) (dec v) = ind v p.
Proof. destruct v; cbn [dec zsum fold_right aw ind]; lia. Qed.
Lemma inc_weight sl p v : zsum (aw sl p) (inc v) = - ind v p.
Proof. destruct v; cbn [inc zsum fold_right aw ind]; lia. Qed.
Lemma dec_zero p v : zsum (za p) (dec v) = 0. Proof. destruct v; reflexivity. Qed.
Lemma inc_zero p v : zsum (za p) (inc v) = 0. Proof. destruct v; reflexivity. Qed.
Lemma dec_drops v : Forall isdrop (dec v). Proof. destruct v; repeat constructor. Qed.

Lemma read_ok s t sl x : inv s -> nth_error (thrs s) t = Some (mkthr sl []) ->
  match read s sl x with
  | Got (Some p) => (p < length (objs s))%nat /\ (In (Some p) sl \/ exists q o, In (Some q) sl /\ nth_error (objs s) q = Some o /\ In (Some p) (fields o))
  | DeadSource => False
  | _ => True
  end.
Proof.
  intros H Ht. destruct (i_thr s H t _ Ht) as (_ & A & _). cbn [slots] in A. destruct x as [i|i j]; cbn [read].
  - destruct (nth_error sl i) as [[p|]|] eqn:E; try exact I. apply nth_error_In in E. auto.
  - destruct (nth_error sl i) as [[q|]|] eqn:E; try exact I. apply nth_error_In in E. destruct (nth_error (objs s) q) as [o|] eqn:Ho; [|apply nth_error_None in Ho; specialize (A q E); lia].
    assert (D : dead o = false). { apply (pos_alive s H q o Ho). pose proof (total_ge_thread s H t _ q Ht) as G. unfold tw in G. cbn [slots pend zsum fold_right] in G. apply occ_in in E. lia. }
    rewrite D. destruct (nth_error (fields o) j) as [[p|]|] eqn:Ej; try exact I. apply nth_error_In in Ej. split; [|right; eauto].
    pose proof (i_old s H q o p Ho Ej). specialize (A q E). lia.
Qed.

Lemma start_keeps s t sl o : inv s -> nth_error (thrs s) t = Some (mkthr sl []) -> (forall d i j, o <> MoveField d i j) ->
  match start s t (mkthr sl []) o with Moved s' => inv s' | Bad => False | _ => True end.
Proof.
  intros H Ht Nm. destruct (i_thr s H t _ Ht) as (_ & A & _). cbn [slots] in A.
  assert (W0 : forall p, tw p (mkthr sl []) = occ p sl) by (intros p; apply idle_tw; reflexivity).
  assert (Z0 : forall p, zth p (mkthr sl []) = 0) by reflexivity.
  destruct o as [d l|d x|d x|i|d x|d x|d i j|i t' j|i]; cbn [start slots].
  - (* New *)
    destruct (forallb (fun i => (i <? length sl)%nat) l && (d <? length sl)%nat) eqn:E; [|exact I]. cbn [negb]. apply andb_prop in E. destruct E as (El & Ed). apply Nat.ltb_lt in Ed.
    assert (Fl : Forall (fun i => (i < length sl)%nat) l) by (apply Forall_forall; intros i Hi; rewrite forallb_forall in El; specialize (El i Hi); apply Nat.ltb_lt; exact El).
    destruct (take sl l) as [f sl'] eqn:Et. destruct (take_spec l sl f sl' Et Fl) as (L & Eo & In').
    set (p := length (objs s)). set (o := mkobj 1 f false 0).
    apply (inv_step s t _ _ _ H Ht).
    + apply stable_app.
    + right. cbn [slots pend]. exists (dec (nth d sl' None)), []. rewrite app_nil_r. split; [reflexivity|]. split; [apply dec_drops|left; reflexivity].
    + rewrite app_length. cbn [length]. split; cbn [slots pend].
      * intros q Hq. apply in_upd in Hq. destruct Hq as [Hq|Hq]; [injection Hq as ->; unfold p; lia|]. assert (q < length (objs s))%nat by (apply A, In'; auto). lia.
      * destruct (nth d sl' None) as [q|] eqn:En; cbn [dec]; constructor; [|constructor]. cbn. assert (In (Some q) sl') by (rewrite <- En; apply nth_In; lia). assert (q < length (objs s))%nat by (apply A, In'; auto). lia.
    + intros q x Hx. unfold okobj. rewrite (total_step s t _ _ _ q Ht), (zall_step s t _ _ _ q Ht), zsum_app, W0, Z0.
      assert (Ew : tw q (mkthr (upd sl' d (Some p)) (dec (nth d sl' None))) = occ q sl' + ind (Some p) q).
      { unfold tw. cbn [slots pend]. rewrite dec_weight, occ_upd by lia. lia. }
      assert (Ez : zth q (mkthr (upd sl' d (Some p)) (dec (nth d sl' None))) = 0) by (unfold zth; cbn [pend]; apply dec_zero).
      rewrite Ew, Ez. cbn [zsum fold_right ow o dead fields]. specialize (Eo q). rewrite ind_eq. destruct (Nat.eqb_spec p q) as [<-|N].
      * rewrite nth_error_app2, Nat.sub_diag in Hx by lia. injection Hx as <-. cbn [o count dead zeros]. unfold p. rewrite (total_fresh s H), (zall_fresh s H) by lia.
        split; [fold p; lia|]. split; [reflexivity|]. split; [discriminate|reflexivity].
      * assert (q < p)%nat as Lq. { apply nth_lt in Hx. rewrite app_length in Hx. cbn in Hx. unfold p in *. lia. }
        rewrite nth_error_app1 in Hx by exact Lq. destruct (i_obj s H q x Hx) as (C' & Z' & D' & N'). split; [lia|]. split; [rewrite <- Z'; lia|auto].
    + intros q x r Hx Hr. destruct (lt_dec q p) as [Lq|Lq].
      * rewrite nth_error_app1 in Hx by exact Lq. apply (i_old s H q x r Hx Hr).
      * assert (q = p) as -> by (apply nth_lt in Hx; rewrite app_length in Hx; cbn in Hx; unfold p in *; lia). rewrite nth_error_app2, Nat.sub_diag in Hx by (unfold p; lia). injection Hx as <-.
        cbn [o fields] in Hr. apply A, In'. auto.
  - (* copy construction *)
    pose proof (read_ok s t sl x H Ht) as R. destruct (read s sl x) as [v| |]; [|exact I|contradiction]. destruct (nth_error sl d) as [[?|]|] eqn:Ed; try exact I.
    assert (Ld : (d < length sl)%nat) by (apply nth_lt in Ed; exact Ed). pose proof (nth_err sl d None None Ed) as En.
    assert (Ew : forall p, tw p (mkthr (upd sl d v) (inc v)) = occ p sl) by (intros p; unfold tw; cbn [slots pend]; rewrite inc_weight, occ_upd, En by exact Ld; cbn [ind]; lia).
    apply (inv_local s t _ _ H Ht).
    + destruct v as [p|]; [|right; exists [], []; split; [reflexivity|split; [constructor|left; reflexivity]]]. destruct R as (Lp & R). left. exists p, None. cbn [slots pend]. split; [reflexivity|].
      split; [eapply nth_error_In; apply nth_upd_eq; exact Ld|]. destruct R as [R|(q & o & Iq & Ho & Ip)].
      * left. rewrite (Ew p : tw p (mkthr (upd sl d (Some p)) (inc (Some p))) = _). apply occ_in. exact R.
      * right. exists q, o. rewrite (Ew q : tw q (mkthr (upd sl d (Some p)) (inc (Some p))) = _). split; [apply occ_in; exact Iq|auto].
    + split; cbn [slots pend].
      * intros p Hp. apply in_upd in Hp. destruct Hp as [Hp|Hp]; [subst v; apply R|auto].
      * destruct v; repeat constructor. apply R.
    + intros p. rewrite Ew, W0. reflexivity.
    + intros p. unfold zth. cbn [pend]. apply inc_zero.
  - (* move construction *)
    destruct (nth_error sl x) as [v|] eqn:Ex; [|exact I]. destruct (nth_error sl d) as [[?|]|] eqn:Ed; try exact I.
    assert (Ld : (d < length sl)%nat) by (apply nth_lt in Ed; exact Ed). assert (Lx : (x < length sl)%nat) by (apply nth_lt in Ex; exact Ex).
    pose proof (nth_err sl d None None Ed) as En. pose proof (nth_err sl x None v Ex) as Ev.
    apply (inv_local s t _ _ H Ht).
    + right. exists [], []. split; [reflexivity|split; [constructor|left; reflexivity]].
    + split; [|constructor]. cbn [slots]. intros p Hp. apply in_upd in Hp. destruct Hp as [Hp|Hp]; [apply A; rewrite Hp; eapply nth_error_In; exact Ex|]. apply in_upd in Hp. destruct Hp as [Hp|Hp]; [discriminate|auto].
    + intros p. rewrite W0. unfold tw. cbn [slots pend zsum fold_right]. rewrite occ_upd by (rewrite upd_length; exact Ld). rewrite occ_upd by exact Lx. rewrite nth_upd_d by exact Lx. rewrite En, Ev. cbn [ind].
      destruct (Nat.eqb_spec x d); cbn [ind]; lia.
    + intros p. reflexivity.
  - (* clear *)
    destruct (nth_error sl i) as [v|] eqn:Ei; [|exact I]. assert (Li : (i < length sl)%nat) by (apply nth_lt in Ei; exact Ei). pose proof (nth_err sl i None v Ei) as Ev.
    apply (inv_local s t _ _ H Ht).
    + right. exists (dec v), [Null i]. split; [reflexivity|]. split; [apply dec_drops|]. right. left. exists i. split; [exact Li|reflexivity].
    + split; [exact A|]. cbn [pend]. apply Forall_app. split; [|repeat constructor]. destruct v as [p|]; repeat constructor. cbn. apply A. eapply nth_error_In. exact Ei.
    + intros p. rewrite W0. unfold tw. cbn [slots pend]. rewrite zsum_app, dec_weight. cbn [zsum fold_right aw]. rewrite Ev. lia.
    + intros p. unfold zth. cbn [pend]. rewrite zsum_app, dec_zero. reflexivity.
  - (* copy assignment *)
    pose proof (read_ok s t sl x H Ht) as R. destruct (read s sl x) as [v| |]; [|exact I|contradiction]. destruct (nth_error sl d) as [old|] eqn:Ed; [|exact I].
    assert (Ld : (d < length sl)%nat) by (apply nth_lt in Ed; exact Ed). pose proof (nth_err sl d None old Ed) as En.
    assert (Ew : forall p, tw p (mkthr (upd sl d v) (inc v ++ dec old)) = occ p sl) by (intros p; unfold tw; cbn [slots pend]; rewrite zsum_app, inc_weight, dec_weight, occ_upd, En by exact Ld; lia).
    apply (inv_local s t _ _ H Ht).
    + destruct v as [p|]; [|right; exists (dec old), []; split; [symmetry; apply app_nil_r|split; [apply dec_drops|left; reflexivity]]]. destruct R as (Lp & R). left. exists p, old. cbn [slots pend]. split; [reflexivity|].
      split; [eapply nth_error_In; apply nth_upd_eq; exact Ld|]. destruct R as [R|(q & o & Iq & Ho & Ip)].
      * left. rewrite (Ew p : tw p (mkthr (upd sl d (Some p)) (inc (Some p) ++ dec old)) = _). apply occ_in. exact R.
      * right. exists q, o. rewrite (Ew q : tw q (mkthr (upd sl d (Some p)) (inc (Some p) ++ dec old)) = _). split; [apply occ_in; exact Iq|auto].
    + split; cbn [slots pend].
      * intros p Hp. apply in_upd in Hp. destruct Hp as [Hp|Hp]; [subst v; apply R|auto].
      * apply Forall_app. split; [destruct v; repeat constructor; apply R|]. destruct old as [q|]; repeat constructor. cbn. apply A. eapply nth_error_In. exact Ed.
    + intros p. rewrite Ew, W0. reflexivity.
    + intros p. unfold zth. cbn [pend]. rewrite zsum_app, inc_zero, dec_zero. reflexivity.
  - (* move assignment *)
    destruct (nth_error sl x) as [v|] eqn:Ex; [|exact I]. destruct (nth_error sl d) as [old|] eqn:Ed; [|exact I].
    assert (Ld : (d < length sl)%nat) by (apply nth_lt in Ed; exact Ed). assert (Lx : (x < length sl)%nat) by (apply nth_lt in Ex; exact Ex).
    pose proof (nth_err sl d None old Ed) as En.
    apply (inv_local s t _ _ H Ht).
    + right. exists (dec old), [Tail d x]. split; [reflexivity|]. split; [apply dec_drops|]. right. right. exists d, x. auto.
    + split; [exact A|]. cbn [pend]. apply Forall_app. split; [|repeat constructor]. destruct old as [p|]; repeat constructor. cbn. apply A. eapply nth_error_In. exact Ed.
    + intros p. rewrite W0. unfold tw. cbn [slots pend]. rewrite zsum_app, dec_weight. cbn [zsum fold_right aw]. rewrite En. lia.
    + intros p. unfold zth. cbn [pend]. rewrite zsum_app, dec_zero. reflexivity.
  - destruct (Nm d i j eq_refl).
  - (* passing a handle on *)
    destruct (nth_error (thrs s) t') as [[sl' pd']|] eqn:Ht'; [|exact I]. destruct (nth_error sl i) as [v|] eqn:Ei; [|exact I]. cbn [pend slots].
    destruct pd' as [|? ?]; [|exact I]. destruct (nth_error sl' j) as [[?|]|] eqn:Ej; try exact I. destruct (Nat.eqb_spec t t') as [|Ntt]; [exact I|].
    assert (Li : (i < length sl)%nat) by (apply nth_lt in Ei; exact Ei). assert (Lj : (j < length sl')%nat) by (apply nth_lt in Ej; exact Ej).
    pose proof (nth_err sl i None v Ei) as Ev. pose proof (nth_err sl' j None None Ej) as En.
    set (th1 := mkthr (upd sl i None) []). set (th2 := mkthr (upd sl' j v) []).
    destruct (i_thr s H t' _ Ht') as (_ & A' & _). cbn [slots] in A'.
    assert (Sh0 : forall l, shape (objs s) (mkthr l [])) by (intros l; right; exists [], []; split; [reflexivity|split; [constructor|left; reflexivity]]).
    assert (Ht2 : nth_error (upd (thrs s) t th1) t' = Some (mkthr sl' [])) by (rewrite nth_upd_ne by exact Ntt; exact Ht').
    constructor; cbn [objs thrs].
    + intros p o Ho. unfold okobj. 
      assert (Et : total (mkst (objs s) (upd (upd (thrs s) t th1) t' th2)) p = total s p).
      { unfold total. cbn [thrs objs]. rewrite (zsum_upd _ _ _ th2 _ Ht2), (zsum_upd _ _ _ th1 _ Ht). unfold tw at 2 3 4 5. cbn [slots pend th1 th2 zsum fold_right]. rewrite !occ_upd by assumption. rewrite Ev, En. cbn [ind]. lia. }
      assert (Ez : zall (mkst (objs s) (upd (upd (thrs s) t th1) t' th2)) p = zall s p).
      { unfold zall. cbn [thrs]. rewrite (zsum_upd _ _ _ th2 _ Ht2), (zsum_upd _ _ _ th1 _ Ht). unfold zth at 2 3 4 5. cbn [pend th1 th2 zsum fold_right]. lia. }
      rewrite Et, Ez. apply (i_obj s H p o Ho).
    + intros u y Hu. rewrite nth_upd in Hu. destruct (Nat.eqb_spec t' u) as [<-|N1].
      * destruct (Nat.ltb_spec t' (length (upd (thrs s) t th1))); [|discriminate]. injection Hu as <-. split; [apply Sh0|]. split; [|constructor]. cbn [th2 slots]. intros p Hp. apply in_upd in Hp. destruct Hp as [Hp|Hp]; [|auto]. apply A. rewrite Hp. eapply nth_error_In. exact Ei.
      * rewrite nth_upd in Hu. destruct (Nat.eqb_spec t u) as [<-|N2]; [|apply (i_thr s H u y Hu)].
        destruct (Nat.ltb_spec t (length (thrs s))); [|discriminate]. injection Hu as <-. split; [apply Sh0|]. split; [|constructor]. cbn [th1 slots]. intros p Hp. apply in_upd in Hp. destruct Hp as [Hp|Hp]; [discriminate|auto].
    + apply (i_old s H).
  - destruct (nth_error sl i) as [[p|]|] eqn:Ei; try exact I. apply nth_error_In in Ei.
    assert (Hh : held s p) by (exists t, (mkthr sl []); auto). destruct (held_alive s H p Hh) as (o & -> & ->). exact H.
Qed.

Lemma step_keeps s t m : inv s -> (forall d i j, m <> Do (MoveField d i j)) -> match step s t m with Moved s' => inv s' | Bad => False | _ => True end.
Proof.
  intros H N. unfold step. destruct (nth_error (thrs s) t) as [[sl pd]|] eqn:Ht; [|exact I]. destruct m as [|o].
  - apply go_keeps; assumption.
  - cbn [pend]. destruct pd; [|exact I]. apply start_keeps; [exact H|exact Ht|]. intros d i j ->. apply (N d i j). reflexivity.
Qed.
Lemma run_keeps l : forall s, inv s -> no_move_out l -> match run s l with Moved s' => inv s' | Bad => False | _ => True end.
Proof.
  induction l as [|[t m] l IH]; intros s H N; cbn [run]; [exact H|].
  assert (Nl : no_move_out l) by (intros u d i j Hi; apply (N u d i j); right; exact Hi).
  pose proof (step_keeps s t m H) as K. destruct (step s t m) as [s'| | |].
  - apply IH; [apply K|exact Nl]. intros d i j ->. apply (N t d i j). left. reflexivity.
  - apply IH; assumption.
  - apply K. intros d i j ->. apply (N t d i j). left. reflexivity.
  - exact I.
Qed.
Lemma repeat_none p k : occ p (repeat None k) = 0.
Proof. apply zsum_zero. intros x Hx. apply repeat_spec in Hx. subst. reflexivity. Qed.
Lemma inv_init n k : inv (init n k).
Proof.
  constructor; cbn [init objs thrs].
  - intros p o Ho. destruct p; discriminate.
  - intros t th Ht. apply nth_error_In, repeat_spec in Ht. subst th. split.
    + right. exists [], []. split; [reflexivity|split; [constructor|left; reflexivity]].
    + split; [|constructor]. cbn [slots]. intros p Hp. apply repeat_spec in Hp. discriminate.
  - intros p o q Ho. destruct p; discriminate.
Qed.

(* ---- the promises ---- *)
Theorem refs_safe n k l : no_move_out l -> run (init n k) l <> Bad.
Proof. intros N E. pose proof (run_keeps l _ (inv_init n k) N) as K. rewrite E in K. exact K. Qed.
Theorem refs_alive n k l s : no_move_out l -> run (init n k) l = Moved s -> (forall p, held s p -> alive s p) /\ (forall q p, inside s q p -> alive s p).
Proof. intros N E. pose proof (run_keeps l _ (inv_init n k) N) as K. rewrite E in K. split; [apply held_alive; exact K|apply inside_alive; exact K]. Qed.
Theorem refs_once n k l s p o : no_move_out l -> run (init n k) l = Moved s -> nth_error (objs s) p = Some o ->
  (zeros o = 0%nat /\ dead o = false) \/ (zeros o = 1%nat /\ dead o = true /\ ~ held s p /\ forall q, ~ inside s q p).
Proof.
  intros N E Ho. pose proof (run_keeps l _ (inv_init n k) N) as K. rewrite E in K. destruct (i_obj s K p o Ho) as (_ & _ & D & Z).
  destruct (dead o) eqn:Ed; [right|left; auto]. split; [apply D; reflexivity|]. split; [reflexivity|]. split.
  - intros Hh. apply (held_alive s K) in Hh. destruct Hh as (o' & Ho' & D'). congruence.
  - intros q Hi. apply (inside_alive s K) in Hi. destruct Hi as (o' & Ho' & D'). congruence.
Qed.
Lemma quiet_alive s p o : inv s -> quiet s -> nth_error (objs s) p = Some o -> dead o = false -> held s p \/ exists q, inside s q p.
Proof.
  intros K Q Ho D. destruct (i_obj s K p o Ho) as (C & Z & _ & _). rewrite D in Z.
  assert (Z0 : zall s p = 0). { apply zsum_zero. intros th Hth. apply In_nth_error in Hth. destruct Hth as (t & Ht). unfold zth. rewrite (Q t th Ht). reflexivity. }
  assert (P : 0 < total s p). { pose proof (total_nonneg s K p). destruct (Z.eqb_spec (count o) 0); lia. }
  unfold total in P. assert (Ht0 : 0 <= zsum (tw p) (thrs s)) by (apply zsum_nonneg; intros; apply (tw_in s K); assumption).
  destruct (Z_lt_dec 0 (zsum (tw p) (thrs s))) as [G|G].
  - left. apply zsum_pos in G. destruct G as (th & Hth & G). apply In_nth_error in Hth. destruct Hth as (t & Ht). pose proof (Q t th Ht) as E. rewrite (idle_tw th p E) in G. apply occ_pos in G. exists t, th. auto.
  - right. assert (G' : 0 < zsum (ow p) (objs s)) by lia. apply zsum_pos in G'. destruct G' as (o' & Hi & G'). apply In_nth_error in Hi. destruct Hi as (q & Hq). exists q, o'. unfold ow in G'. destruct (dead o') eqn:Ed; [lia|]. apply occ_pos in G'. auto.
Qed.
Lemma quiet_reachable s : inv s -> quiet s -> forall m p o, (length (objs s) - p <= m)%nat -> nth_error (objs s) p = Some o -> dead o = false -> reachable s p.
Proof.
  intros K Q. induction m as [|m IH]; intros p o L Ho D; pose proof (nth_lt _ _ _ Ho) as Lp; [lia|].
  destruct (quiet_alive s p o K Q Ho D) as [Hh|(q & Hi)]; [apply r_held; exact Hh|]. apply r_inside with q; [|exact Hi].
  destruct Hi as (o' & Ho' & D' & I). pose proof (i_old s K q o' p Ho' I). apply (IH q o' ltac:(lia) Ho' D').
Qed.
Lemma reachable_alive s p : inv s -> reachable s p -> alive s p.
Proof. intros K [q Hh|q r _ Hi]; [apply (held_alive s K); exact Hh|apply (inside_alive s K q); exact Hi]. Qed.
Theorem refs_exact n k l s p o : no_move_out l -> run (init n k) l = Moved s -> quiet s -> nth_error (objs s) p = Some o ->
  (zeros o = 0%nat <-> reachable s p) /\ (zeros o = 1%nat <-> ~ reachable s p).
Proof.
  intros N E Q Ho. pose proof (run_keeps l _ (inv_init n k) N) as K. rewrite E in K. destruct (i_obj s K p o Ho) as (_ & _ & D & Z).
  assert (R : dead o = false <-> reachable s p).
  { split; [intros Hd; apply (quiet_reachable s K Q (length (objs s)) p o ltac:(lia) Ho Hd)|]. intros Hr. apply (reachable_alive s p K) in Hr. destruct Hr as (o' & Ho' & D'). congruence. }
  destruct (dead o).
  - destruct (D eq_refl) as (_ & ->). split; split; intros X; try discriminate; try reflexivity; [exfalso; apply R in X; discriminate|]. intros Y. apply R in Y. discriminate.
  - rewrite (Z eq_refl). split; split; intros X; try discriminate; try reflexivity; [apply R; reflexivity|]. exfalso. apply X, R. reflexivity.
Qed.

(** Every operation comes to its end: some measure goes down whatever thread goes on. *)
Definition acost (a : act) : nat := match a with Dec _ => 2 | _ => 1 end.
Definition tcost (th : thr) : Z := zsum (fun a => Z.of_nat (acost a)) (pend th).
Definition ocost (o : obj) : Z := if dead o then 0 else 2 * Z.of_nat (length (fields o)).
Definition cost (s : state) : Z := zsum tcost (thrs s) + zsum ocost (objs s).
Lemma cost_nonneg s : 0 <= cost s.
Proof. unfold cost. assert (0 <= zsum tcost (thrs s)) by (apply zsum_nonneg; intros; apply zsum_nonneg; intros; lia). assert (0 <= zsum ocost (objs s)) by (apply zsum_nonneg; intros o _; unfold ocost; destruct (dead o); lia). lia. Qed.
Lemma decs_cost l : zsum (fun a => Z.of_nat (acost a)) (decs l) <= 2 * Z.of_nat (length l).
Proof. induction l as [|[q|] l IH]; cbn [decs flat_map app length]; [cbn; lia| |fold (decs l); lia]. fold (decs l). rewrite zsum_cons. cbn [acost]. lia. Qed.
Lemma go_cost s t th s' : nth_error (thrs s) t = Some th -> go s t th = Moved s' -> cost s' < cost s.
Proof.
  intros Ht. destruct th as [sl pd]. unfold go. cbn [slots pend]. destruct pd as [|a rest]; [discriminate|].
  assert (Tc : forall sl' r, zsum tcost (upd (thrs s) t (mkthr sl' r)) = zsum tcost (thrs s) - zsum (fun a => Z.of_nat (acost a)) (a :: rest) + zsum (fun a => Z.of_nat (acost a)) r).
  { intros sl' r. rewrite (zsum_upd _ _ _ _ _ Ht). unfold tcost at 2 3. cbn [pend]. lia. }
  destruct a as [p|p|p|i|d x|d p j]; unfold incRef, decRef, onRefCountZero, set_obj, set_thr; cbn [objs thrs].
  - destruct (nth_error (objs s) p) as [o|] eqn:Ho; [|discriminate]. destruct (dead o) eqn:D; [discriminate|]. destruct (count o <? 0); [discriminate|]. destruct (65535 <=? count o); [discriminate|].
    intros E. injection E as <-. unfold cost. cbn [objs thrs]. rewrite Tc, (zsum_upd _ _ _ _ _ Ho), zsum_cons. unfold ocost at 2 3. cbn [dead fields acost]. rewrite D. lia.
  - destruct (nth_error (objs s) p) as [o|] eqn:Ho; [|discriminate]. destruct (dead o) eqn:D; [discriminate|]. destruct (count o <? 1); [discriminate|]. destruct (65535 <=? count o); [discriminate|].
    intros E. injection E as <-. unfold cost. cbn [objs thrs]. rewrite Tc, (zsum_upd _ _ _ _ _ Ho), zsum_cons. unfold ocost at 2 3. cbn [dead fields acost]. rewrite D. destruct (count o =? 1); [rewrite zsum_cons; cbn [acost]|]; lia.
  - destruct (nth_error (objs s) p) as [o|] eqn:Ho; [|discriminate]. destruct (dead o) eqn:D; [discriminate|].
    intros E. injection E as <-. unfold cost. cbn [objs thrs]. rewrite Tc, (zsum_upd _ _ _ _ _ Ho), zsum_cons, zsum_app. unfold ocost at 2 3. cbn [dead fields acost]. rewrite D. pose proof (decs_cost (fields o)). lia.
  - intros E. injection E as <-. unfold cost. cbn [objs thrs]. rewrite Tc, zsum_cons. cbn [acost]. lia.
  - intros E. injection E as <-. unfold cost. cbn [objs thrs]. rewrite Tc, zsum_cons. cbn [acost]. lia.
  - destruct (nth_error (objs s) p) as [o|] eqn:Ho; [|discriminate]. destruct (dead o) eqn:D; [discriminate|].
    intros E. injection E as <-. unfold cost. cbn [objs thrs]. rewrite Tc, (zsum_upd _ _ _ _ _ Ho), zsum_cons. unfold ocost at 2 3. cbn [dead fields acost]. rewrite D, upd_length. lia.
Qed.
Lemma quiet_dec s : quiet s \/ exists t th, nth_error (thrs s) t = Some th /\ pend th <> [].
Proof.
  destruct (forallb (fun th => match pend th with [] => true | _ => false end) (thrs s)) eqn:E.
  - left. intros t th Ht. rewrite forallb_forall in E. specialize (E th (nth_error_In _ _ Ht)). destruct (pend th); [reflexivity|discriminate].
  - right. assert (X : exists th, In th (thrs s) /\ pend th <> []).
    { induction (thrs s) as [|th l IH]; cbn in E; [discriminate|]. destruct (pend th) eqn:Ep; cbn in E; [destruct (IH E) as (x & Hx & Nx); exists x; split; [right; exact Hx|exact Nx]|]. exists th. split; [left; reflexivity|congruence]. }
    destruct X as (th & Hth & Nth). apply In_nth_error in Hth. destruct Hth as (t & Ht). eauto.
Qed.
Lemma run_app l1 : forall s l2, run s (l1 ++ l2) = match run s l1 with Moved s' => run s' l2 | x => x end.
Proof. induction l1 as [|[t m] l1 IH]; intros s l2; cbn [app run]; [reflexivity|]. destruct (step s t m); auto. Qed.
Lemma settles m : forall s, inv s -> (cost s <= Z.of_nat m) -> exists ts, match run s (map (fun t => (t, Go)) ts) with Moved s' => quiet s' | Limit => True | _ => False end.
Proof.
  induction m as [|m IH]; intros s K L; (destruct (quiet_dec s) as [Q|(t & th & Ht & Np)]; [exists []; exact Q|]).
  - exfalso. assert (1 <= tcost th). { unfold tcost. destruct (pend th) as [|a l]; [contradiction|]. rewrite zsum_cons. assert (0 <= zsum (fun a => Z.of_nat (acost a)) l) by (apply zsum_nonneg; intros; lia). destruct a; cbn [acost]; lia. }
    unfold cost in L. assert (tcost th <= zsum tcost (thrs s)) by (apply zsum_ge; [intros; apply zsum_nonneg; intros; lia|eapply nth_error_In; exact Ht]).
    assert (0 <= zsum ocost (objs s)) by (apply zsum_nonneg; intros o _; unfold ocost; destruct (dead o); lia). lia.
  - pose proof (step_keeps s t Go K ltac:(intros; discriminate)) as G. assert (Eg : step s t Go = go s t th) by (unfold step; rewrite Ht; reflexivity). rewrite Eg in G.
    destruct (go s t th) as [s'| | |] eqn:E.
    + pose proof (go_cost s t th s' Ht E). destruct (IH s' G ltac:(lia)) as (ts & R). exists (t :: ts). cbn [map run]. rewrite Eg. exact R.
    + exfalso. unfold go, incRef, decRef, onRefCountZero in E. destruct (pend th) as [|a l]; [contradiction|].
      destruct a; cbn [objs set_thr] in E; try discriminate; (destruct (nth_error (objs s) _) as [o|]; [|discriminate]); (destruct (dead o); [discriminate|]); try discriminate;
      (destruct (count o <? _); [discriminate|]); (destruct (65535 <=? count o); discriminate).
    + destruct G.
    + exists [t]. cbn [map run]. rewrite Eg. exact I.
Qed.
Theorem refs_settle n k l s : no_move_out l -> run (init n k) l = Moved s ->
  exists ts, match run s (map (fun t => (t, Go)) ts) with Moved s' => quiet s' | Limit => True | _ => False end.
Proof. intros N E. pose proof (run_keeps l _ (inv_init n k) N) as K. rewrite E in K. apply (settles (Z.to_nat (cost s))); [exact K|]. pose proof (cost_nonneg s). lia. Qed.
