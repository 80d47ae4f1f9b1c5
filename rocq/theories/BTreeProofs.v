(* Proofs about the model of BTree. *)
From Verif Require Import BTreeModel BTreeSpec.
From Coq Require Import ZifyBool ZifyNat.
Ltac Zify.zify_post_hook ::= Z.div_mod_to_equations.

(* ---- lists ---- *)
Lemma ss_app {A} (R : A -> A -> Prop) a b : StronglySorted R (a ++ b) <->
  StronglySorted R a /\ StronglySorted R b /\ forall x y, In x a -> In y b -> R x y.
Proof.
  induction a as [|z a IH]; cbn [app].
  - split; [intros H; repeat split; auto; [constructor|intros ? ? []]|tauto].
  - split.
    + intros H. inversion H as [|? ? H1 H2]; subst. apply IH in H1. destruct H1 as (H1 & H3 & H4).
      rewrite Forall_app in H2. destruct H2 as (H2 & H5). split; [constructor; assumption|]. split; [assumption|].
      intros x y [<-|Hx] Hy; [rewrite Forall_forall in H5; auto|auto].
    + intros (H1 & H2 & H3). inversion H1 as [|? ? H4 H5]; subst. constructor.
      * apply IH. repeat split; auto. intros; apply H3; [right|]; assumption.
      * rewrite Forall_app. split; [assumption|]. rewrite Forall_forall. intros y Hy. apply H3; [left; reflexivity|assumption].
Qed.
Lemma insert_at_app {A} (l r : list A) x : insert_at (l ++ r) (length l) x = l ++ x :: r.
Proof. unfold insert_at. rewrite firstn_app, skipn_app, firstn_all, skipn_all, Nat.sub_diag. cbn [firstn skipn]. rewrite app_nil_r. reflexivity. Qed.
Lemma delete_at_app {A} (l r : list A) x : delete_at (l ++ x :: r) (length l) = l ++ r.
Proof.
  unfold delete_at. rewrite firstn_app, firstn_all, Nat.sub_diag. cbn [firstn]. rewrite app_nil_r. f_equal.
  rewrite skipn_app, skipn_all2 by lia. cbn [app]. replace (S (length l) - length l)%nat with 1%nat by lia. reflexivity.
Qed.
Lemma upd_at_app {A} (l r : list A) x y : upd (l ++ x :: r) (length l) y = l ++ y :: r.
Proof. induction l; cbn [app length upd]; [reflexivity|]. f_equal. assumption. Qed.
Lemma nth_at_app {A} (l r : list A) x : nth_error (l ++ x :: r) (length l) = Some x.
Proof. rewrite nth_error_app2, Nat.sub_diag by lia. reflexivity. Qed.
Lemma nth_at_app1 {A} (l r : list A) x : nth_error (l ++ x :: r) (S (length l)) = hd_error r.
Proof. rewrite nth_error_app2 by lia. replace (S (length l) - length l)%nat with 1%nat by lia. destruct r; reflexivity. Qed.

Lemma nth_skipn {A} (l : list A) p q : nth_error (skipn p l) q = nth_error l (p + q).
Proof. revert l. induction p as [|p IH]; intros [|x l]; cbn [skipn Nat.add nth_error]; auto. destruct q; reflexivity. Qed.

Section Proofs.
Context {Item Index : Type} (getIndex : Item -> Index) (less eqI : Index -> Index -> bool) (cap : nat).
Context (SW : strict_weak less) (HeqI : forall a b, eqI a b = true -> less a b = false /\ less b a = false) (Hcap : (2 <= cap)%nat).
Notation node := (@node Item Index).
Notation key := getIndex.
Notation le := (not_after getIndex less).
Notation sorted := (sorted getIndex less).
Notation irr := (sw_irrefl less SW).
Notation neg := (sw_neg less SW).

Definition eqv a b := less a b = false /\ less b a = false.
Lemma eqv_refl a : eqv a a.
Proof. split; apply irr. Qed.
Lemma eqv_sym a b : eqv a b -> eqv b a.
Proof. intros [? ?]; split; assumption. Qed.
Lemma eqv_trans a b c : eqv a b -> eqv b c -> eqv a c.
Proof. intros [? ?] [? ?]; split; eapply neg; eassumption. Qed.
Lemma less_asym a b : less a b = true -> less b a = false.
Proof. intros H. destruct (less b a) eqn:E; [|reflexivity]. rewrite <- (irr a). symmetry. exact (sw_trans less SW _ _ _ H E). Qed.
Lemma le_trans x y z : le x y -> le y z -> le x z.
Proof. unfold not_after. intros. eapply neg; eassumption. Qed.
Lemma less_le_trans a b c : less a b = true -> less c b = false -> less a c = true.
Proof. intros H1 H2. destruct (less a c) eqn:E; [reflexivity|]. rewrite (neg _ _ _ E H2) in H1. discriminate. Qed.
Lemma le_less_trans a b c : less b a = false -> less b c = true -> less a c = true.
Proof. intros H1 H2. destruct (less a c) eqn:E; [reflexivity|]. rewrite (neg _ _ _ H1 E) in H2. discriminate. Qed.

(* ---- trees ---- *)
Fixpoint flat (n : node) : list Item :=
  match n with Leaf l => l | Inner l => flat_map (fun x => flat (snd x)) l end.
Definition flatl (l : list (Index * node)) : list Item := flat_map (fun x => flat (snd x)) l.
Lemma flatl_app a b : flatl (a ++ b) = flatl a ++ flatl b.
Proof. apply flat_map_app. Qed.
Lemma flatl_cons x b : flatl (x :: b) = flat (snd x) ++ flatl b.
Proof. reflexivity. Qed.

Definition first_ok (k : Index) (n : node) : Prop := exists y r, flat n = y :: r /\ eqv k (key y).
Fixpoint wf (d : nat) (n : node) : Prop :=
  match d, n with
  | O, Leaf l => (length l <= cap)%nat
  | S d, Inner l => (length l <= cap)%nat /\ Forall (fun x => wf d (snd x) /\ first_ok (fst x) (snd x)) l
  | _, _ => False
  end.
Definition link_ok d (x : Index * node) : Prop := wf d (snd x) /\ first_ok (fst x) (snd x).
Definition LK d l := Forall (link_ok d) l.

Lemma LK_app d a b : LK d (a ++ b) <-> LK d a /\ LK d b.
Proof. apply Forall_app. Qed.
Lemma LK_cons d x b : LK d (x :: b) <-> link_ok d x /\ LK d b.
Proof. apply Forall_cons_iff. Qed.

Lemma sorted_app a b : sorted (a ++ b) <-> sorted a /\ sorted b /\ forall x y, In x a -> In y b -> le x y.
Proof. apply ss_app. Qed.

Lemma first_in k n : first_ok k n -> exists y, In y (flat n) /\ eqv k (key y) /\ hd_error (flat n) = Some y.
Proof. intros (y & r & E & H). exists y. rewrite E. split; [left; reflexivity|auto]. Qed.

Lemma flatl_nil d l : LK d l -> flatl l = [] -> l = [].
Proof.
  destruct l as [|x l]; [reflexivity|]. intros H E. apply LK_cons in H. destruct H as ((_ & y & r & F & _) & _).
  rewrite flatl_cons, F in E. discriminate.
Qed.
Lemma size_zero d n : wf d n -> (size n = 0%nat <-> flat n = []).
Proof.
  destruct d as [|d], n as [l|l]; cbn [wf size flat]; try contradiction; intros H.
  - destruct l; cbn [length]; split; intros; congruence || lia.
  - destruct H as (_ & H). split.
    + destruct l; cbn [length]; [reflexivity|lia].
    + intros E. rewrite (flatl_nil d l H E). reflexivity.
Qed.

(* ---- binary searches ---- *)
Lemma lastLess_ok (links : list (Index * node)) x : forall fuel lo hi, (hi - lo <= fuel)%nat -> (lo <= hi < length links)%nat ->
  (lo = 0%nat \/ exists k c, nth_error links lo = Some (k, c) /\ less k x = true) ->
  (forall k c, nth_error links (S hi) = Some (k, c) -> less k x = false) ->
  exists i, lastLess less fuel links x lo hi = Some i /\ (i < length links)%nat /\
    (i = 0%nat \/ exists k c, nth_error links i = Some (k, c) /\ less k x = true) /\
    (forall k c, nth_error links (S i) = Some (k, c) -> less k x = false).
Proof.
  induction fuel as [|fuel IH]; intros lo hi Hf Hr H1 H2; cbn [lastLess].
  - destruct (Nat.ltb_spec lo hi); [lia|]. exists lo. replace hi with lo in H2 by lia. repeat split; auto; lia.
  - destruct (Nat.ltb_spec lo hi).
    2:{ exists lo. replace hi with lo in H2 by lia. repeat split; auto; lia. }
    cbv zeta. set (mid := ((lo + hi + 1) / 2)%nat). assert (Hm : (lo < mid <= hi)%nat) by (subst mid; lia).
    destruct (nth_ex links mid ltac:(lia)) as ((k & c) & E). rewrite E. destruct (less k x) eqn:L.
    + apply IH; auto; try lia. right. eauto.
    + apply IH; auto; try lia. intros k' c'. replace (S (mid - 1)) with mid by lia. rewrite E. intros Q. injection Q as <- <-. exact L.
Qed.
Lemma getLast_ok links x : links <> [] -> exists i, getLastChildLessThan (Item := Item) less links x = Some i /\ (i < length links)%nat /\
    (i = 0%nat \/ exists k c, nth_error links i = Some (k, c) /\ less k x = true) /\
    (forall k c, nth_error links (S i) = Some (k, c) -> less k x = false).
Proof.
  intros H. unfold getLastChildLessThan. assert (0 < length links)%nat by (destruct links; cbn [length]; [congruence|lia]).
  rewrite (proj2 (Nat.ltb_lt _ _) H0). apply lastLess_ok; try lia.
  intros k c E. apply nth_lt in E. lia.
Qed.

Lemma bisect_ok g (items : list Item) : forall fuel lo hi, (hi - lo <= fuel)%nat -> (lo <= hi <= length items)%nat ->
  (forall p y, lo = S p -> nth_error items p = Some y -> g (key y) = false) ->
  (forall y, nth_error items hi = Some y -> g (key y) = true) ->
  exists p, bisect getIndex fuel g items lo hi = Some p /\ (p <= length items)%nat /\
  (forall q y, p = S q -> nth_error items q = Some y -> g (key y) = false) /\
  (forall y, nth_error items p = Some y -> g (key y) = true).
Proof.
  induction fuel as [|fuel IH]; intros lo hi Hf Hr H1 H2; cbn [bisect].
  - destruct (Nat.ltb_spec lo hi); [lia|]. exists lo. replace hi with lo in H2 by lia. repeat split; auto; lia.
  - destruct (Nat.ltb_spec lo hi).
    2:{ exists lo. replace hi with lo in H2 by lia. repeat split; auto; lia. }
    cbv zeta. set (mid := ((lo + hi) / 2)%nat). assert (Hm : (lo <= mid < hi)%nat) by (subst mid; lia).
    destruct (nth_ex items mid ltac:(lia)) as (y & E). rewrite E. destruct (g (key y)) eqn:L.
    + apply IH; auto; try lia. intros y'. rewrite E. intros Q. injection Q as <-. exact L.
    + apply IH; auto; try lia. intros p y' Ep. replace p with mid by lia. rewrite E. intros Q. injection Q as <-. exact L.
Qed.

Lemma sorted_nth l p q x y : sorted l -> (p < q)%nat -> nth_error l p = Some x -> nth_error l q = Some y -> le x y.
Proof.
  intros H Hpq E1 E2. rewrite (nth_split_eq _ _ _ E1) in H. apply sorted_app in H. destruct H as (_ & H & _).
  inversion H as [|? ? _ F]; subst. rewrite Forall_forall in F. apply F.
  apply (nth_error_In (skipn (S p) l) (q - S p)). rewrite nth_skipn, <- E2. f_equal. lia.
Qed.

Lemma bisect_split g l : sorted l -> (forall x y, le x y -> g (key x) = true -> g (key y) = true) ->
  exists a b, l = a ++ b /\ bisect getIndex (length l) g l 0 (length l) = Some (length a) /\
    Forall (fun y => g (key y) = false) a /\ Forall (fun y => g (key y) = true) b.
Proof.
  intros H M. destruct (bisect_ok g l (length l) 0 (length l)) as (p & E & Hp & H1 & H2); try lia.
  { intros y Ey. apply nth_lt in Ey. lia. }
  exists (firstn p l), (skipn p l). rewrite firstn_skipn, firstn_length_le by lia. split; [reflexivity|]. split; [exact E|].
  assert (N1 : forall q y, nth_error (firstn p l) q = Some y -> (q < p)%nat /\ nth_error l q = Some y).
  { intros q y Ey. pose proof (nth_lt _ _ _ Ey) as Hq. rewrite firstn_length in Hq. split; [lia|].
    rewrite <- Ey. rewrite <- (firstn_skipn p l) at 1. apply nth_error_app1. rewrite firstn_length. lia. }
  split; apply Forall_forall; intros y Hy; apply In_nth_error in Hy; destruct Hy as (q & Ey).
  - destruct (N1 q y Ey) as (Hq & Ey'). destruct p as [|p]; [lia|]. destruct (nth_ex l p ltac:(lia)) as (z & Ez).
    pose proof (H1 p z eq_refl Ez) as Gz. destruct (g (key y)) eqn:Gy; [|reflexivity]. rewrite <- Gz. symmetry.
    destruct (Nat.eq_dec q p) as [->|]; [congruence|]. apply (M y z); [|exact Gy]. apply (sorted_nth l q p); auto. lia.
  - rewrite nth_skipn in Ey. destruct (nth_ex l p ltac:(apply nth_lt in Ey; lia)) as (z & Ez).
    pose proof (H2 z Ez) as Gz. destruct q as [|q]; [rewrite Nat.add_0_r in Ey; congruence|].
    apply (M z y); [|exact Gz]. apply (sorted_nth l p (p + S q)); auto. lia.
Qed.

Lemma insertPos_ok l x : sorted l -> exists a b, l = a ++ b /\ findInsertPos getIndex less l (key x) = Some (length a) /\
  Forall (fun y => le y x) a /\ Forall (fun y => le x y) b.
Proof.
  intros H. destruct (bisect_split (fun k => less (key x) k) l H) as (a & b & E & Hb & H1 & H2).
  { intros y z Hyz Hy. apply (less_le_trans _ (key y)); assumption. }
  exists a, b. split; [exact E|]. split; [exact Hb|]. split; [exact H1|].
  eapply Forall_impl; [|exact H2]. intros y Hy. apply less_asym. exact Hy.
Qed.
Lemma gePos_ok l k : sorted l -> exists a b, l = a ++ b /\ findGreaterOrEqualPos getIndex less l k = Some (length a) /\
  Forall (fun y => less (key y) k = true) a /\ Forall (fun y => less (key y) k = false) b.
Proof.
  intros H. destruct (bisect_split (fun k' => negb (less k' k)) l H) as (a & b & E & Hb & H1 & H2).
  { intros y z Hyz Hy. apply negb_true_iff in Hy. apply negb_true_iff. exact (neg _ _ _ Hyz Hy). }
  exists a, b. split; [exact E|]. split; [exact Hb|]. split.
  - eapply Forall_impl; [|exact H1]. cbn beta. intros y Hy. apply negb_false_iff. exact Hy.
  - eapply Forall_impl; [|exact H2]. cbn beta. intros y Hy. apply negb_true_iff. exact Hy.
Qed.

(* ---- insertion ---- *)
Definition extra_l (r : ires) : list (Index * node) := match extra r with Some e => [e] | None => [] end.
Definition same_first (n m : node) : Prop := forall y t, flat n = y :: t -> exists y' t', flat m = y' :: t' /\ eqv (key y) (key y').

Record ins_post (d : nat) (n : node) (x : Item) (r : ires) (a b : list Item) : Prop := {
  P_old : flat n = a ++ b;
  P_a : Forall (fun y => le y x) a;
  P_b : Forall (fun y => le x y) b;
  P_new : flat (main r) ++ flatl (extra_l r) = a ++ x :: b;
  P_wf : wf d (main r);
  P_ne : flat (main r) <> [];
  P_ex : LK d (extra_l r);
  P_bump : bump r = true -> inExtra r = false /\ a = [];
  P_stay : bump r = false -> same_first n (main r) }.

Lemma insertItemAt_ok (a b : list Item) x : (length (a ++ b) < cap)%nat -> insertItemAt cap (a ++ b) (length a) x = Some (a ++ x :: b).
Proof.
  intros H. unfold insertItemAt. rewrite app_length in *.
  replace ((length a + length b <? cap)%nat && (length a <=? length a + length b)%nat && (length a <? cap)%nat) with true by lia.
  rewrite insert_at_app. reflexivity.
Qed.

Lemma ins_leaf_ok l x : wf 0 (Leaf l) -> sorted l -> exists r a b, ins_leaf getIndex less cap l x = Some r /\ ins_post 0 (Leaf l) x r a b.
Proof.
  intros Hw Hs. cbn [wf] in Hw. unfold ins_leaf. destruct (insertPos_ok l x Hs) as (a & b & E & -> & Ha & Hb).
  destruct (Nat.leb_spec cap (length l)) as [Hc|Hc].
  2:{ subst l. rewrite insertItemAt_ok by lia. eexists _, a, b. split; [reflexivity|].
      split; cbn [main extra bump inExtra flat extra_l flatl flat_map wf]; auto.
      - rewrite app_nil_r. reflexivity.
      - rewrite app_length in *. cbn [length]. lia.
      - destruct a; discriminate.
      - constructor.
      - intros H. split; [reflexivity|]. apply length_zero_iff_nil. lia.
      - intros H y t Ey. cbn [flat] in *. destruct a as [|a0 a]; [cbn [length] in H; lia|]. cbn [app] in *. injection Ey as <- <-.
        exists a0. eexists. split; [reflexivity|apply eqv_refl]. }
  replace (length l <? 2)%nat with false by lia. cbv zeta. set (mid := (length l / 2)%nat).
  assert (Hm : (1 <= mid /\ mid < length l /\ length l - mid < cap /\ mid < cap)%nat) by (subst mid; lia). clearbody mid.
  pose proof (skipn_length mid l) as L1. pose proof (firstn_length_le l (n := mid) ltac:(lia)) as L2.
  assert (El : l = firstn mid l ++ skipn mid l) by (symmetry; apply firstn_skipn).
  destruct (skipn mid l) as [|r0 rt] eqn:Er; [cbn [length] in L1; lia|]. rewrite <- Er in *.
  assert (Hne : firstn mid l <> []) by (intros Q; rewrite Q in L2; cbn [length] in L2; lia).
  destruct (Nat.ltb_spec mid (length a)) as [Hp|Hp].
  - (* the new item goes to the right half *)
    assert (Ea : a = firstn mid l ++ skipn mid a).
    { rewrite <- (firstn_skipn mid a) at 1. f_equal. rewrite E, firstn_app. replace (mid - length a)%nat with 0%nat by lia.
      cbn [firstn]. rewrite app_nil_r. reflexivity. }
    assert (Es : skipn mid l = skipn mid a ++ b).
    { rewrite E, skipn_app. replace (mid - length a)%nat with 0%nat by lia. reflexivity. }
    rewrite Es. replace (length a - mid)%nat with (length (skipn mid a)) by (rewrite skipn_length; lia).
    rewrite insertItemAt_ok by (rewrite <- Es, L1; lia).
    eexists _, a, b. split; [reflexivity|].
    assert (L3 : (length (skipn mid a) = length a - mid)%nat) by apply skipn_length.
    split; cbn [main extra bump inExtra flat extra_l]; auto.
    + rewrite flatl_cons. cbn [flat snd]. cbn [flatl flat_map]. rewrite app_nil_r, app_assoc, <- Ea. reflexivity.
    + cbn [wf]. lia.
    + constructor; [|constructor]. split; cbn [wf fst snd].
      * rewrite app_length. cbn [length]. rewrite Es, app_length in L1. lia.
      * exists r0. rewrite Er in Es. destruct (skipn mid a) as [|z t]; [cbn [length] in L3; lia|]. cbn [app] in *.
        injection Es as -> _. eexists. split; [reflexivity|apply eqv_refl].
    + lia.
    + intros _ y t Ey. cbn [flat] in *. rewrite El in Ey. destruct (firstn mid l) as [|f0 ft]; [congruence|]. cbn [app] in Ey. injection Ey as <- _.
      exists f0, ft. split; [reflexivity|apply eqv_refl].
  - (* the left half *)
    assert (Ef : firstn mid l = a ++ firstn (mid - length a) b).
    { rewrite E, firstn_app. rewrite firstn_all2 by lia. reflexivity. }
    assert (Eb : b = firstn (mid - length a) b ++ skipn mid l).
    { rewrite <- (firstn_skipn (mid - length a) b) at 1. f_equal. rewrite E, skipn_app, (skipn_all2 (n:=mid) a) by lia. reflexivity. }
    rewrite Ef. rewrite insertItemAt_ok by (rewrite <- Ef, L2; lia).
    eexists _, a, b. split; [reflexivity|].
    split; cbn [main extra bump inExtra flat extra_l]; auto.
    + rewrite flatl_cons. cbn [flat snd]. cbn [flatl flat_map]. rewrite app_nil_r, <- app_assoc. cbn [app]. rewrite <- Eb. reflexivity.
    + cbn [wf]. rewrite app_length. cbn [length]. rewrite Ef, app_length in L2. lia.
    + destruct a; discriminate.
    + constructor; [|constructor]. split; cbn [wf fst snd]; [lia|]. exists r0, rt. cbn [flat]. split; [exact Er|apply eqv_refl].
    + intros H. split; [reflexivity|]. apply length_zero_iff_nil. lia.
    + intros H y t Ey. cbn [flat] in *. destruct a as [|a0 a']; [cbn [length] in H; lia|]. subst l. cbn [app] in *. injection Ey as <- _.
      exists a0. eexists. split; [reflexivity|apply eqv_refl].
Qed.

Lemma insertLink_ok (a b : list (Index * node)) e : (length (a ++ b) < cap)%nat -> insertLink cap (a ++ b) (length a) e = Some (a ++ e :: b).
Proof.
  intros H. unfold insertLink. rewrite app_length in *.
  replace ((length a + length b <? cap)%nat && (length a <=? length a + length b)%nat) with true by lia.
  rewrite insert_at_app. reflexivity.
Qed.
Lemma irc_ok (A B : list (Index * node)) e : (length (A ++ B) <= cap)%nat -> (1 <= length A)%nat ->
  exists l rt, insertRightChild cap (A ++ B) (length A) e = Some (l, rt) /\
    l ++ (match rt with Some r => r | None => [] end) = A ++ e :: B /\ l <> [] /\ (length l <= cap)%nat /\
    match rt with Some r => r <> [] /\ (length r <= cap)%nat | None => True end.
Proof.
  intros Hl HA. unfold insertRightChild. destruct (Nat.leb_spec cap (length (A ++ B))) as [Hc|Hc].
  2:{ rewrite insertLink_ok by lia. do 2 eexists. split; [reflexivity|]. rewrite app_nil_r. split; [reflexivity|].
      split; [destruct A; discriminate|]. split; [|exact I]. rewrite app_length in *. cbn [length]. lia. }
  replace (length (A ++ B) <? 2)%nat with false by lia. cbv zeta. set (mid := (length (A ++ B) / 2)%nat).
  assert (Hm : (1 <= mid /\ mid < length (A ++ B) /\ length (A ++ B) - mid < cap /\ mid < cap)%nat) by (subst mid; lia). clearbody mid.
  pose proof (skipn_length mid (A ++ B)) as L1. pose proof (firstn_length_le (A ++ B) (n := mid) ltac:(lia)) as L2.
  rewrite app_length in *.
  destruct (Nat.ltb_spec mid (length A)) as [Hp|Hp].
  - assert (Es : skipn mid (A ++ B) = skipn mid A ++ B) by (rewrite skipn_app; replace (mid - length A)%nat with 0%nat by lia; reflexivity).
    assert (Ef : firstn mid (A ++ B) = firstn mid A).
    { rewrite firstn_app. replace (mid - length A)%nat with 0%nat by lia. cbn [firstn]. apply app_nil_r. }
    rewrite Es, Ef. replace (length A - mid)%nat with (length (skipn mid A)) by (rewrite skipn_length; lia).
    rewrite insertLink_ok by (rewrite <- Es, L1; lia). do 2 eexists. split; [reflexivity|].
    split; [rewrite app_assoc, firstn_skipn; reflexivity|]. rewrite Ef in L2.
    split; [intros Q; rewrite Q in L2; cbn [length] in L2; lia|]. split; [lia|]. split; [destruct (skipn mid A); discriminate|].
    rewrite Es, app_length in L1. rewrite app_length. cbn [length]. lia.
  - assert (Ef : firstn mid (A ++ B) = A ++ firstn (mid - length A) B) by (rewrite firstn_app, firstn_all2 by lia; reflexivity).
    assert (Es : skipn mid (A ++ B) = skipn (mid - length A) B) by (rewrite skipn_app, skipn_all2 by lia; reflexivity).
    rewrite Es, Ef. rewrite insertLink_ok by (rewrite <- Ef, L2; lia). do 2 eexists. split; [reflexivity|].
    split; [rewrite <- app_assoc; cbn [app]; rewrite firstn_skipn; reflexivity|]. rewrite Ef, app_length in L2. rewrite Es in L1.
    split; [destruct A; discriminate|]. split; [rewrite app_length; cbn [length]; lia|].
    split; [intros Q; rewrite Q in L1; cbn [length] in L1; lia|lia].
Qed.

(** What is known of the links of a node around the one that was followed. *)
Lemma around L ki c R x d : sorted (flatl (L ++ (ki, c) :: R)) -> LK d (L ++ (ki, c) :: R) ->
  (L = [] \/ less ki x = true) -> (forall k c', hd_error R = Some (k, c') -> less k x = false) ->
  Forall (fun z => less (key z) x = true) (flatl L) /\ Forall (fun z => less (key z) x = false) (flatl R) /\
  sorted (flatl L) /\ sorted (flat c) /\ sorted (flatl R).
Proof.
  intros Hs HL H1 H2. rewrite flatl_app, flatl_cons in Hs. cbn [snd] in Hs.
  apply sorted_app in Hs. destruct Hs as (S1 & S2 & S3). apply sorted_app in S2. destruct S2 as (S4 & S5 & S6).
  apply LK_app in HL. destruct HL as (HL & HR). apply LK_cons in HR. destruct HR as ((_ & Hc) & HR). cbn [fst snd] in Hc.
  split; [|split; [|auto]].
  - destruct H1 as [->|H1]; [constructor|]. apply Forall_forall. intros z Hz. destruct (first_in _ _ Hc) as (y & Hy & (E1 & E2) & _).
    assert (Q : le z y) by (apply S3; [exact Hz|apply in_app_iff; left; exact Hy]). unfold not_after in Q.
    apply (le_less_trans _ ki); [|exact H1]. exact (neg _ _ _ E1 Q).
  - destruct R as [|(k1, c1) R]; [constructor|]. specialize (H2 k1 c1 eq_refl). apply LK_cons in HR. destruct HR as ((_ & y & t & Ey & E1 & E2) & _).
    cbn [fst snd] in *. rewrite flatl_cons in *. cbn [snd] in *. rewrite Ey in *. cbn [app] in *. inversion S5 as [|? ? S7 S8]; subst.
    assert (Qy : less (key y) x = false) by exact (neg _ _ _ E2 H2).
    constructor; [exact Qy|]. eapply Forall_impl; [|exact S8]. intros z Hz. exact (neg _ _ _ Hz Qy).
Qed.

Lemma touch_first k old (c : node) l x : eqv k k -> (forall k1 c1, hd_error l = Some (k1, c1) -> less k1 x = false) ->
  exists k' b, touch less eqI ((old, c) :: l) 0 x = Some ((k', c) :: l, b) /\ eqv k' x /\ (b = false -> eqv x old).
Proof.
  intros _ H. assert (R : match nth_error ((old, c) :: l) 1 with Some (kr, _) => negb (less kr x) | None => true end = true).
  { destruct l as [|(k1, c1) l]; [reflexivity|]. cbn [nth_error]. rewrite (H k1 c1 eq_refl). reflexivity. }
  unfold touch. rewrite R. cbn [nth_error].
  cbn [andb]. destruct (eqI x old) eqn:E.
  - exists old, false. split; [reflexivity|]. destruct (HeqI _ _ E). split; [split; assumption|]. intros _. split; assumption.
  - cbn [upd Nat.eqb]. exists x, true. split; [reflexivity|]. split; [apply eqv_refl|discriminate].
Qed.

Lemma LK_flat d l z : LK d l -> forall k c, In (k, c) l -> (forall y, In y (flatl l) -> less (key y) z = false) -> less k z = false.
Proof.
  intros H k c Hi Hz. unfold LK in H. rewrite Forall_forall in H. destruct (H _ Hi) as (_ & y & t & E & E1 & E2). cbn [fst snd] in *.
  apply (neg _ (key y)); [exact E1|]. apply Hz. apply in_flat_map. exists (k, c). split; [exact Hi|]. cbn [snd]. rewrite E. left. reflexivity.
Qed.

Lemma touch2_ok d l rt x j b T a bb n : l ++ (match rt with Some r => r | None => [] end) = T -> l <> [] -> (length l <= cap)%nat ->
  match rt with Some r => r <> [] /\ (length r <= cap)%nat | None => True end ->
  flat n = a ++ bb -> Forall (fun y => le y x) a -> Forall (fun y => le x y) bb -> flatl T = a ++ x :: bb ->
  (b = false -> LK d T /\ same_first n (Inner T)) ->
  (b = true -> j = 0%nat /\ a = [] /\ exists ki c rest, T = (ki, c) :: rest /\ LK d rest /\ wf d c /\ flat c <> [] /\
      forall y t, flat n = y :: t -> eqv ki (key y)) ->
  exists r, touch2 less eqI l rt j (key x) b = Some r /\ ins_post (S d) n x r a bb.
Proof.
  intros ET Hl Hc Hrt Hn Ha Hb HT H0 H1.
  assert (Gen : forall l', flatl l' = flatl l -> length l' = length l -> forall bm ie,
     LK d (l' ++ match rt with Some r => r | None => [] end) -> (bm = true -> ie = false /\ a = []) -> (bm = false -> same_first n (Inner l')) ->
     forall ex, match rt with Some r => match r with [] => False | (kr, _) :: _ => ex = Some (kr, Inner r) end | None => ex = None end ->
     ins_post (S d) n x (mkir (Inner l') ex ie bm) a bb).
  { intros l' Fl Ll bm ie HLK Hbm Hst ex Hex.
    assert (Fe : flatl (extra_l (mkir (Inner l') ex ie bm)) = flatl (match rt with Some r => r | None => [] end)).
    { destruct rt as [[|(kr, cr) r]|]; [contradiction| |]; subst ex; unfold extra_l; cbn [extra]; [|reflexivity].
      rewrite flatl_cons. cbn [snd flat]. change (flatl []) with (@nil Item). rewrite app_nil_r. reflexivity. }
    apply LK_app in HLK. destruct HLK as (K1 & K2).
    split; auto.
    - rewrite Fe. cbn [main flat]. fold (flatl l'). rewrite Fl, <- flatl_app, ET. exact HT.
    - cbn [main wf]. split; [lia|exact K1].
    - cbn [main flat]. fold (flatl l'). intros Q. apply (flatl_nil d) in Q; [|exact K1]. subst l'. destruct l; [congruence|discriminate].
    - destruct rt as [[|(kr, cr) r]|]; [contradiction| |]; subst ex; unfold extra_l; cbn [extra]; [|constructor].
      constructor; [|constructor]. destruct Hrt as (_ & Hr). split; cbn [fst snd wf].
      + split; [exact Hr|exact K2].
      + apply LK_cons in K2. destruct K2 as ((_ & y & t & Ey & Q) & _). cbn [fst snd] in *. exists y. cbn [flat]. cbn [flat_map snd].
        rewrite Ey. cbn [app]. eexists. split; [reflexivity|exact Q]. }
  assert (SF : same_first n (Inner T) -> LK d T -> same_first n (Inner l)).
  { intros HS HK y t Ey. destruct (HS y t Ey) as (y' & t' & E' & Q). rewrite <- ET in E', HK. cbn [flat] in *.
    fold (flatl l). fold (flatl (l ++ match rt with Some r => r | None => [] end)) in E'. rewrite flatl_app in E'.
    apply LK_app in HK. destruct HK as (HK & _). destruct (flatl l) as [|z s] eqn:Ez; [apply (flatl_nil d) in Ez; [congruence|exact HK]|].
    cbn [app] in E'. injection E' as -> _. exists y', s. auto. }
  unfold touch2. destruct b.
  - destruct (H1 eq_refl) as (-> & Ea & ki & c & rest & ETc & Kr & Wc & Nc & Fst). clear H0.
    destruct l as [|p0 l]; [congruence|]. rewrite <- ET in ETc. cbn [app] in ETc. injection ETc as -> Er.
    assert (Fc : flat c <> []) by exact Nc.
    assert (Hd : exists t, flat c = x :: t).
    { rewrite <- ET in HT. cbn [app] in HT. rewrite flatl_cons in HT. cbn [snd] in HT. subst a. cbn [app] in HT.
      destruct (flat c) as [|z t]; [congruence|]. cbn [app] in HT. injection HT as -> _. eauto. }
    destruct Hd as (tc & Hd).
    destruct (touch_first ki ki c l (key x) (eqv_refl _)) as (k' & b' & Et & Q1 & Q2).
    { intros k1 c1 Hh. apply (LK_flat d rest (key x) Kr k1 c1).
      - rewrite <- Er. destruct l; [discriminate|]. cbn [hd_error] in Hh. injection Hh as ->. left. reflexivity.
      - intros y Hy. rewrite <- ET in HT. cbn [app] in HT. rewrite flatl_cons, Er in HT. cbn [snd] in HT. rewrite Hd in HT. subst a.
        cbn [app] in HT. injection HT as HT. rewrite Forall_forall in Hb. apply (Hb y). rewrite <- HT. apply in_app_iff. right. exact Hy. }
    assert (KK : LK d (((k', c) :: l) ++ match rt with Some r => r | None => [] end)).
    { cbn [app]. rewrite Er. apply LK_cons. split; [|exact Kr]. split; [exact Wc|]. exists x, tc. auto. }
    assert (BB : b' = false -> same_first n (Inner ((k', c) :: l))).
    { intros Hb' y t Ey. cbn [flat flat_map snd]. rewrite Hd. cbn [app]. do 2 eexists. split; [reflexivity|].
      apply eqv_sym. apply (eqv_trans _ ki); [apply Q2; exact Hb'|apply (Fst y t Ey)]. }
    destruct rt as [[|(kr, cr) r]|]; [destruct Hrt; congruence| |].
    + cbn [length Nat.leb]. rewrite Et. eexists. split; [reflexivity|]. apply Gen; auto.
    + rewrite Et. eexists. split; [reflexivity|]. apply Gen; auto.
  - destruct (H0 eq_refl) as (KT & ST). rewrite <- ET in KT.
    destruct rt as [[|(kr, cr) r]|]; [destruct Hrt; congruence| |].
    + destruct (length l <=? j)%nat; eexists; (split; [reflexivity|]); apply Gen; auto; try discriminate; intros _; apply SF; auto; rewrite <- ET; exact KT.
    + eexists. split; [reflexivity|]. apply Gen; auto; try discriminate. intros _; apply SF; auto; rewrite <- ET; exact KT.
Qed.

Lemma ins_ok d : forall n x, wf d n -> (flat n <> [] \/ d = 0%nat) -> sorted (flat n) ->
  exists r a b, ins getIndex less eqI cap d n x = Some r /\ ins_post d n x r a b.
Proof.
  induction d as [|d IH]; intros n x Hw Hne Hs; destruct n as [l|links]; cbn [wf] in Hw; try contradiction.
  - apply ins_leaf_ok; assumption.
  - destruct Hw as (Hlen & HK). change (LK d links) in HK. cbn [ins].
    assert (Hl : links <> []) by (intros ->; destruct Hne as [Hne|Hne]; [apply Hne; reflexivity|discriminate]).
    destruct (getLast_ok links (key x) Hl) as (i & -> & Hi & Hlo & Hhi).
    destruct (nth_ex links i Hi) as ((ki & c) & Ec). rewrite Ec.
    pose proof (nth_split_eq _ _ _ Ec) as Esp. set (L := firstn i links) in *. set (R := skipn (S i) links) in *.
    assert (Li : length L = i) by (subst L; apply firstn_length_le; lia).
    rewrite Esp in HK, Hs, Hhi, Hlo, Ec, Hlen, Hl |- *. clear Esp. clearbody L R. subst i.
    rewrite nth_at_app1 in Hhi. rewrite nth_at_app in Hlo.
    assert (H1 : L = [] \/ less ki (key x) = true).
    { destruct Hlo as [H|(k & c' & H & H')]; [left; apply length_zero_iff_nil; exact H|]. injection H as -> _. right. exact H'. }
    cbn [flat] in Hs. fold (flatl (L ++ (ki, c) :: R)) in Hs.
    destruct (around L ki c R (key x) d Hs HK H1 Hhi) as (AL & AR & SL & Sc & SR).
    apply LK_app in HK. destruct HK as (KL & HK). apply LK_cons in HK. destruct HK as ((Wc & Fc) & KR). cbn [fst snd] in *.
    assert (Nc : flat c <> []) by (destruct Fc as (y & t & Ey & _); congruence).
    destruct (IH c x Wc (or_introl Nc) Sc) as (r & a & b & -> & HP).
    unfold ins_inner. rewrite Ec. cbv zeta. rewrite upd_at_app.
    set (T := L ++ (ki, main r) :: extra_l r ++ R).
    set (j := if inExtra r then S (length L) else length L).
    assert (FT : flatl T = (flatl L ++ a) ++ x :: (b ++ flatl R)).
    { subst T. rewrite flatl_app, flatl_cons. cbn [snd]. rewrite flatl_app, (app_assoc (flat (main r))), (P_new _ _ _ _ _ _ HP), <- !app_assoc. reflexivity. }
    assert (Fn : flat (Inner (L ++ (ki, c) :: R)) = (flatl L ++ a) ++ (b ++ flatl R)).
    { cbn [flat]. fold (flatl (L ++ (ki, c) :: R)). rewrite flatl_app, flatl_cons. cbn [snd]. rewrite (P_old _ _ _ _ _ _ HP), <- !app_assoc. reflexivity. }
    assert (Fa : Forall (fun y => le y x) (flatl L ++ a)).
    { apply Forall_app. split; [|exact (P_a _ _ _ _ _ _ HP)]. eapply Forall_impl; [|exact AL]. intros z Hz. apply less_asym. exact Hz. }
    assert (Fb : Forall (fun y => le x y) (b ++ flatl R)).
    { apply Forall_app. split; [exact (P_b _ _ _ _ _ _ HP)|]. eapply Forall_impl; [|exact AR]. intros z Hz. exact Hz. }
    assert (B0 : bump r = false -> LK d T /\ same_first (Inner (L ++ (ki, c) :: R)) (Inner T)).
    { intros Hb. pose proof (P_stay _ _ _ _ _ _ HP Hb) as St. destruct Fc as (y & t & Ey & Qy). destruct (St y t Ey) as (y' & t' & Ey' & Qy').
      split.
      - subst T. apply LK_app. split; [exact KL|]. apply LK_cons. split; [|apply LK_app; split; [exact (P_ex _ _ _ _ _ _ HP)|exact KR]].
        split; [exact (P_wf _ _ _ _ _ _ HP)|]. exists y', t'. split; [exact Ey'|]. cbn [fst]. apply (eqv_trans _ (key y)); assumption.
      - intros z s Ez. cbn [flat] in *. subst T. destruct L as [|(k0, c0) L].
        + cbn [app flat_map snd] in *. rewrite Ey in Ez. rewrite Ey'. cbn [app] in *. injection Ez as <- <-. eauto.
        + cbn [app flat_map snd] in *. apply LK_cons in KL. destruct KL as ((_ & w & s' & Ew & _) & _). cbn [snd] in Ew. rewrite Ew in *.
          cbn [app] in *. injection Ez as <- <-. do 2 eexists. split; [reflexivity|apply eqv_refl]. }
    assert (B1 : bump r = true -> j = 0%nat /\ flatl L ++ a = [] /\ exists ki' c' rest, T = (ki', c') :: rest /\ LK d rest /\ wf d c' /\ flat c' <> [] /\
      forall y t, flat (Inner (L ++ (ki, c) :: R)) = y :: t -> eqv ki' (key y)).
    { intros Hb. destruct (P_bump _ _ _ _ _ _ HP Hb) as (Q1 & ->). assert (L = []) as ->.
      { destruct H1 as [|H1]; [assumption|]. exfalso. destruct Fc as (y & t & Ey & E1 & E2).
        pose proof (P_old _ _ _ _ _ _ HP) as Po. rewrite Ey in Po. cbn [app] in Po. subst b.
        pose proof (P_b _ _ _ _ _ _ HP) as Pb. inversion Pb as [|? ? Pb1 _]; subst. unfold not_after in Pb1.
        rewrite (neg _ _ _ E1 Pb1) in H1. discriminate. }
      subst j. rewrite Q1. split; [reflexivity|]. split; [reflexivity|]. exists ki, (main r), (extra_l r ++ R). split; [reflexivity|].
      split; [apply LK_app; split; [exact (P_ex _ _ _ _ _ _ HP)|exact KR]|]. split; [exact (P_wf _ _ _ _ _ _ HP)|]. split; [exact (P_ne _ _ _ _ _ _ HP)|].
      intros y t Ey. destruct Fc as (y0 & t0 & Ey0 & Q). cbn [app flat flat_map snd] in Ey. rewrite Ey0 in Ey. cbn [app] in Ey. injection Ey as <- _. exact Q. }
    rewrite app_length in Hlen. cbn [length] in Hlen.
    destruct (extra r) as [e|] eqn:Ee.
    + replace (L ++ (ki, main r) :: R) with ((L ++ [(ki, main r)]) ++ R) by (rewrite <- app_assoc; reflexivity).
      replace (S (length L)) with (length (L ++ [(ki, main r)])) by (rewrite app_length; cbn [length]; lia).
      destruct (irc_ok (L ++ [(ki, main r)]) R e) as (l & rt & -> & G1 & G2 & G3 & G4).
      { rewrite !app_length. cbn [length]. lia. } { rewrite app_length. cbn [length]. lia. }
      assert (ET : l ++ (match rt with Some r => r | None => [] end) = T).
      { rewrite G1. subst T. unfold extra_l. rewrite Ee, <- app_assoc. reflexivity. }
      destruct (touch2_ok d l rt x j (bump r) T (flatl L ++ a) (b ++ flatl R) (Inner (L ++ (ki, c) :: R)) ET G2 G3 G4 Fn Fa Fb FT B0 B1) as (r' & E' & HP').
      exists r', (flatl L ++ a), (b ++ flatl R). split; [exact E'|exact HP'].
    + assert (ET : (L ++ (ki, main r) :: R) ++ (match @None (list (Index * node)) with Some r => r | None => [] end) = T).
      { subst T. unfold extra_l. rewrite Ee, app_nil_r. reflexivity. }
      destruct (touch2_ok d (L ++ (ki, main r) :: R) None x j (bump r) T (flatl L ++ a) (b ++ flatl R) (Inner (L ++ (ki, c) :: R)) ET) as (r' & E' & HP'); auto.
      { destruct L; discriminate. } { rewrite app_length. cbn [length]. lia. }
      exists r', (flatl L ++ a), (b ++ flatl R). split; [exact E'|exact HP'].
Qed.

Lemma height_ok d : forall n, wf d n -> (flat n <> [] \/ d = 0%nat) -> height n = d.
Proof.
  induction d as [|d IH]; intros [l|l] H Hn; cbn [wf] in H; try contradiction; [reflexivity|].
  destruct H as (_ & H). destruct l as [|(k, c) l]; [destruct Hn as [Hn|Hn]; [destruct Hn; reflexivity|discriminate]|].
  cbn [height]. f_equal. apply Forall_cons_iff in H. destruct H as ((H & y & t & Ey & _) & _). cbn [snd] in *. apply IH; [exact H|]. left. congruence.
Qed.

(** The tree holds the sorted list [l]. *)
Definition holds (t : option node) (l : list Item) : Prop :=
  sorted l /\ match t with None => l = [] | Some n => flat n = l /\ l <> [] /\ exists d, wf d n end.

Lemma firstIndex_ok d n : wf d n -> flat n <> [] -> exists k, getFirstIndex getIndex n = Some k /\ first_ok k n.
Proof.
  destruct d as [|d], n as [l|l]; cbn [wf flat getFirstIndex]; try contradiction; intros H Hn.
  - destruct l as [|y l]; [congruence|]. exists (key y). split; [reflexivity|]. exists y, l. split; [reflexivity|apply eqv_refl].
  - destruct l as [|(k, c) l]; [destruct Hn; reflexivity|]. exists k. split; [reflexivity|]. destruct H as (_ & H).
    apply Forall_cons_iff in H. destruct H as ((_ & y & t & Ey & Q) & _). cbn [fst snd] in *. exists y. cbn [flat flat_map snd]. rewrite Ey.
    cbn [app]. eexists. split; [reflexivity|exact Q].
Qed.

Lemma sorted_insert a b x : sorted (a ++ b) -> Forall (fun y => le y x) a -> Forall (fun y => le x y) b -> sorted (a ++ x :: b).
Proof.
  intros H Ha Hb. apply sorted_app in H. destruct H as (H1 & H2 & H3). rewrite Forall_forall in *. apply sorted_app. split; [exact H1|]. split.
  - constructor; [exact H2|]. apply Forall_forall. exact Hb.
  - intros y z Hy [<-|Hz]; auto.
Qed.

Lemma insert_ok t l x : holds t l -> exists n a b, insert getIndex less eqI cap t x = Some n /\ l = a ++ b /\
  sorted (a ++ x :: b) /\ holds (Some n) (a ++ x :: b).
Proof.
  intros (Hs & Ht). unfold insert. set (n := match t with None => Leaf [] | Some n => n end). cbv zeta.
  assert (Hn : exists d, wf d n /\ (flat n <> [] \/ d = 0%nat) /\ flat n = l).
  { destruct t as [n0|]; subst n.
    - destruct Ht as (Hf & Hne & d & Hw). exists d. split; [exact Hw|]. split; [left; congruence|exact Hf].
    - exists 0%nat. cbn [wf length flat]. split; [lia|]. auto. }
  clearbody n. destruct Hn as (d & Hw & Hne & Hf). rewrite (height_ok d n Hw Hne).
  destruct (ins_ok d n x Hw Hne) as (r & a & b & -> & HP); [rewrite Hf; exact Hs|].
  pose proof (P_old _ _ _ _ _ _ HP) as Po. rewrite Po in Hf. subst l.
  pose proof (sorted_insert a b x Hs (P_a _ _ _ _ _ _ HP) (P_b _ _ _ _ _ _ HP)) as Hs'.
  pose proof (P_new _ _ _ _ _ _ HP) as Pn. unfold extra_l in Pn. pose proof (P_ex _ _ _ _ _ _ HP) as Pe. unfold extra_l in Pe.
  assert (Nx : a ++ x :: b <> []) by (destruct a; discriminate).
  destruct (extra r) as [(ke, e)|] eqn:Ee.
  2:{ exists (main r), a, b. split; [reflexivity|]. split; [reflexivity|]. split; [exact Hs'|]. split; [exact Hs'|]. split; [|split; [exact Nx|]].
      - rewrite <- Pn. change (flatl []) with (@nil Item). rewrite app_nil_r. reflexivity.
      - exists d. exact (P_wf _ _ _ _ _ _ HP). }
  assert (Nn : flat n <> []).
  { intros Q. destruct Hne as [?| ->]; [contradiction|]. destruct n as [l0|l0]; [|contradiction]. cbn [flat] in Q. subst l0.
    cbn [flat] in Po. destruct a; [|discriminate]. cbn [app] in Po. subst b. cbn [app] in Pn.
    destruct (flat (main r)) eqn:Em; [destruct (P_ne _ _ _ _ _ _ HP); exact Em|]. cbn [app] in Pn. injection Pn as _ Pn.
    apply LK_cons in Pe. destruct Pe as ((_ & y1 & t1 & Ey1 & _) & _). cbn [snd] in Ey1.
    apply app_eq_nil in Pn. destruct Pn as (_ & Pn). cbn [flatl flat_map snd] in Pn. rewrite Ey1 in Pn. discriminate. }
  destruct (firstIndex_ok d n Hw Nn) as (k0 & -> & y0 & t0 & Ey0 & Q0). cbv zeta.
  assert (Fl : flatl [(k0, main r); (ke, e)] = a ++ x :: b) by (rewrite flatl_cons; cbn [snd]; exact Pn).
  destruct (bump r) eqn:Eb.
  - destruct (P_bump _ _ _ _ _ _ HP Eb) as (-> & ->). cbn [app] in *.
    destruct (flat (main r)) as [|z tm] eqn:Em; [destruct (P_ne _ _ _ _ _ _ HP); exact Em|]. cbn [app] in Pn. injection Pn as -> Pn.
    destruct (touch_first k0 k0 (main r) [(ke, e)] (key x) (eqv_refl _)) as (k' & b' & -> & Q1 & _).
    { intros k1 c1 Q. cbn [hd_error] in Q. injection Q as <- <-. apply (LK_flat d _ (key x) Pe ke e (or_introl eq_refl)). intros y Hy.
      pose proof (P_b _ _ _ _ _ _ HP) as Pb. rewrite Forall_forall in Pb. apply (Pb y). rewrite <- Pn. apply in_app_iff. right. exact Hy. }
    eexists _, [], b. split; [reflexivity|]. split; [reflexivity|]. split; [exact Hs'|]. split; [exact Hs'|]. split; [|split; [exact Nx|]].
    + cbn [flat flat_map snd app]. rewrite Em. cbn [app]. rewrite app_nil_r. f_equal. rewrite <- Pn. cbn [flatl flat_map snd]. rewrite app_nil_r. reflexivity.
    + exists (S d). cbn [wf length]. split; [lia|]. apply LK_cons. split; [|exact Pe]. split; [exact (P_wf _ _ _ _ _ _ HP)|].
      exists x, tm. auto.
  - destruct (P_stay _ _ _ _ _ _ HP Eb y0 t0 Ey0) as (y1 & t1 & Ey1 & Q1).
    eexists _, a, b. split; [reflexivity|]. split; [reflexivity|]. split; [exact Hs'|]. split; [exact Hs'|]. split; [exact Fl|split; [exact Nx|]].
    exists (S d). cbn [wf length]. split; [lia|]. apply LK_cons. split; [|exact Pe]. split; [exact (P_wf _ _ _ _ _ _ HP)|].
    exists y1, t1. split; [exact Ey1|]. cbn [fst]. apply (eqv_trans _ (key y0)); assumption.
Qed.

(* ---- removal ---- *)
(** The position in order of the item at [path]. *)
Fixpoint rank (n : node) (path : list nat) : option nat :=
  match path, n with
  | [p], Leaf l => if (p <? length l)%nat then Some p else None
  | i :: path, Inner l =>
    match nth_error l i with
    | None => None
    | Some (_, c) => match rank c path with Some r => Some (length (flatl (firstn i l)) + r)%nat | None => None end
    end
  | _, _ => None
  end.

Lemma merge_ok d l r : wf d l -> wf d r -> (size l + size r <= cap)%nat ->
  exists m, merge cap l r = Some m /\ flat m = flat l ++ flat r /\ wf d m.
Proof.
  intros H1 H2 Hs. unfold merge. rewrite (proj2 (Nat.leb_le _ _) Hs).
  destruct d as [|d], l as [a|a], r as [b|b]; cbn [wf size] in *; try contradiction; eexists; (split; [reflexivity|]); cbn [flat wf].
  - split; [reflexivity|]. rewrite app_length. exact Hs.
  - split; [apply flat_map_app|]. split; [rewrite app_length; exact Hs|]. apply Forall_app. tauto.
Qed.
Lemma isLeaf_wf d (a b : node) : wf d a -> wf d b -> Bool.eqb (isLeaf a) (isLeaf b) = true.
Proof. destruct d, a, b; cbn [wf]; try contradiction; reflexivity. Qed.
Lemma first_app k n m z : first_ok k n -> flat m = flat n ++ z -> first_ok k m.
Proof. intros (y & t & E & H) Q. rewrite E in Q. exists y, (t ++ z). split; [exact Q|exact H]. Qed.

Lemma deleteLink_ok (L R : list (Index * node)) e u : deleteLink (L ++ e :: R) (length L) u =
  Some (L ++ R, match L, R with [], (k, _) :: _ => Some k | _, _ => u end).
Proof.
  unfold deleteLink. replace (length L <? length (L ++ e :: R))%nat with true by (rewrite app_length; cbn [length]; lia).
  rewrite delete_at_app. destruct L; cbn [length app]; reflexivity.
Qed.

Lemma tryCompact_ok d L kc c R u t : LK d L -> LK d R -> wf d c -> (flat c = [] \/ first_ok kc c) ->
  (length (L ++ (kc, c) :: R) <= cap)%nat ->
  exists r, tryCompact cap (L ++ (kc, c) :: R) (length L) u t = Some r /\
    flat (rnode r) = flatl L ++ flat c ++ flatl R /\ wf (S d) (rnode r) /\ rtouch r = t /\
    (flat (rnode r) = [] -> rcomp r = true) /\
    ((flat c = [] /\ rupd r = match L, R with [], (k, _) :: _ => Some k | _, _ => u end) \/ (flat c <> [] /\ rupd r = u)).
Proof.
  intros KL KR Wc Fc Hlen. rewrite app_length in Hlen. cbn [length] in Hlen. unfold tryCompact. rewrite nth_at_app.
  destruct (Nat.eqb_spec (size c) 0) as [Hz|Hz].
  - apply (size_zero d c Wc) in Hz. rewrite deleteLink_ok. eexists. split; [reflexivity|]. cbn [rnode rtouch rcomp rupd].
    split; [cbn [flat]; rewrite Hz; cbn [app]; apply flat_map_app|]. split; [|split; [reflexivity|split; [reflexivity|left; auto]]].
    cbn [wf]. split; [rewrite app_length; lia|]. apply Forall_app. auto.
  - assert (Nc : flat c <> []) by (intros Q; apply Hz; apply (size_zero d c Wc); exact Q).
    destruct Fc as [Fc|Fc]; [contradiction|]. cbv zeta. rewrite nth_at_app1.
    assert (Same : exists r, Some (mkrr (Inner (L ++ (kc, c) :: R)) u t false) = Some r /\
      flat (rnode r) = flatl L ++ flat c ++ flatl R /\ wf (S d) (rnode r) /\ rtouch r = t /\ (flat (rnode r) = [] -> rcomp r = true) /\
      ((flat c = [] /\ rupd r = match L, R with [], (k, _) :: _ => Some k | _, _ => u end) \/ (flat c <> [] /\ rupd r = u))).
    { eexists. split; [reflexivity|]. cbn [rnode rtouch rcomp rupd].
      assert (E : flat (Inner (L ++ (kc, c) :: R)) = flatl L ++ flat c ++ flatl R) by (cbn [flat]; apply flat_map_app).
      split; [exact E|]. split; [cbn [wf]; rewrite app_length; cbn [length]; split; [lia|]; apply Forall_app; split; [exact KL|]; constructor; [split; assumption|exact KR]|].
      split; [reflexivity|]. split; [|right; auto]. rewrite E. intros Q. apply app_eq_nil in Q. destruct Q as (_ & Q). apply app_eq_nil in Q. tauto. }
    assert (Right : exists r, (match hd_error R with
        | None => Some (mkrr (Inner (L ++ (kc, c) :: R)) u t false)
        | Some (_, r) =>
          if negb (Bool.eqb (isLeaf r) (isLeaf c)) then None else
          if (size c + size r <=? cap)%nat then
            match merge cap c r with
            | None => None
            | Some m =>
              match deleteLink (upd (L ++ (kc, c) :: R) (length L) (kc, m)) (S (length L)) u with
              | None => None
              | Some (l, u) => Some (mkrr (Inner l) u t true)
              end
            end
          else Some (mkrr (Inner (L ++ (kc, c) :: R)) u t false)
        end) = Some r /\
      flat (rnode r) = flatl L ++ flat c ++ flatl R /\ wf (S d) (rnode r) /\ rtouch r = t /\ (flat (rnode r) = [] -> rcomp r = true) /\
      ((flat c = [] /\ rupd r = match L, R with [], (k, _) :: _ => Some k | _, _ => u end) \/ (flat c <> [] /\ rupd r = u))).
    { destruct R as [|(k1, r1) R]; cbn [hd_error]; [exact Same|]. apply LK_cons in KR. destruct KR as ((W1 & F1) & KR). cbn [fst snd] in *.
      rewrite (isLeaf_wf d) by assumption. cbn [negb].
      destruct (Nat.leb_spec (size c + size r1) cap) as [Hm|Hm]; [|exact Same].
      destruct (merge_ok d c r1 Wc W1 Hm) as (m & -> & Fm & Wm). rewrite upd_at_app.
      replace (L ++ (kc, m) :: (k1, r1) :: R) with ((L ++ [(kc, m)]) ++ (k1, r1) :: R) by (rewrite <- app_assoc; reflexivity).
      replace (S (length L)) with (length (L ++ [(kc, m)])) by (rewrite app_length; cbn [length]; lia). rewrite deleteLink_ok.
      eexists. split; [reflexivity|]. cbn [rnode rtouch rcomp rupd].
      split. { cbn [flat]. rewrite !flat_map_app. cbn [flat_map snd]. rewrite Fm, flatl_cons, app_nil_r, <- !app_assoc. reflexivity. }
      split. { cbn [wf]. rewrite !app_length. cbn [length] in *. split; [lia|]. apply Forall_app. split; [|exact KR]. apply Forall_app. split; [exact KL|].
               constructor; [|constructor]. split; [exact Wm|]. cbn [fst snd]. exact (first_app _ _ _ _ Fc Fm). }
      split; [reflexivity|]. split; [reflexivity|]. right. split; [exact Nc|]. destruct L; reflexivity. }
    destruct L as [|e0 L0] using rev_ind.
    + cbn [length]. cbn [length] in Right. exact Right.
    + clear IHL0. destruct e0 as (kl, l). rewrite app_length. cbn [length]. rewrite Nat.add_1_r.
      rewrite app_length in Right. cbn [length] in Right. rewrite Nat.add_1_r in Right.
      apply LK_app in KL. destruct KL as (KL & K1). apply LK_cons in K1. destruct K1 as ((W1 & F1) & _). cbn [fst snd] in *.
      replace (nth_error ((L0 ++ [(kl, l)]) ++ (kc, c) :: R) (length L0)) with (Some (kl, l)).
      2:{ rewrite <- app_assoc. cbn [app]. symmetry. apply nth_at_app. }
      rewrite (isLeaf_wf d) by assumption. cbn [negb].
      destruct (Nat.leb_spec (size c + size l) cap) as [Hm|Hm]; [|exact Right].
      destruct (merge_ok d l c W1 Wc ltac:(lia)) as (m & -> & Fm & Wm).
      cbn [Nat.sub]. rewrite Nat.sub_0_r, <- app_assoc. cbn [app]. rewrite upd_at_app.
      replace (L0 ++ (kl, m) :: (kc, c) :: R) with ((L0 ++ [(kl, m)]) ++ (kc, c) :: R) by (rewrite <- app_assoc; reflexivity).
      replace (S (length L0)) with (length (L0 ++ [(kl, m)])) by (rewrite app_length; cbn [length]; lia). rewrite deleteLink_ok.
      eexists. split; [reflexivity|]. cbn [rnode rtouch rcomp rupd].
      split. { cbn [flat]. rewrite !flat_map_app. cbn [flat_map snd]. rewrite Fm, flatl_app, flatl_cons. cbn [snd]. change (flatl []) with (@nil Item).
               rewrite !app_nil_r, <- !app_assoc. reflexivity. }
      split. { cbn [wf]. rewrite !app_length in *. cbn [length] in *. split; [lia|]. apply Forall_app. split; [|exact KR]. apply Forall_app. split; [exact KL|].
               constructor; [|constructor]. split; [exact Wm|]. cbn [fst snd]. exact (first_app _ _ _ _ F1 Fm). }
      split; [reflexivity|]. split; [reflexivity|]. right. split; [exact Nc|]. destruct L0; reflexivity.
Qed.

Lemma touch_ok (L : list (Index * node)) old c R k : (forall k1 c1, In (k1, c1) L -> less k k1 = false) -> (forall k1 c1, In (k1, c1) R -> less k1 k = false) ->
  exists k' b, touch less eqI (L ++ (old, c) :: R) (length L) k = Some (L ++ (k', c) :: R, b) /\ eqv k' k /\ (b = true -> L = []).
Proof.
  intros HL HR. unfold touch. rewrite nth_at_app, nth_at_app1. cbv zeta.
  replace (match hd_error R with Some (kr, _) => negb (less kr k) | None => true end) with true.
  2:{ destruct R as [|(k1, c1) R]; [reflexivity|]. cbn [hd_error]. rewrite (HR k1 c1 (or_introl eq_refl)). reflexivity. }
  replace (match length L with O => true | S i => match nth_error (L ++ (old, c) :: R) i with Some (kl, _) => negb (less k kl) | None => false end end) with true.
  2:{ destruct L as [|(kl, l) L0] using rev_ind; [reflexivity|]. rewrite app_length. cbn [length]. rewrite Nat.add_1_r, <- app_assoc. cbn [app]. rewrite nth_at_app.
      rewrite (HL kl l); [reflexivity|]. apply in_app_iff. right. left. reflexivity. }
  cbn [andb]. destruct (eqI k old) eqn:E.
  - destruct (HeqI _ _ E). exists old, false. split; [reflexivity|]. split; [split; assumption|discriminate].
  - rewrite upd_at_app. do 2 eexists. split; [reflexivity|]. split; [apply eqv_refl|]. intros Q. apply length_zero_iff_nil. lia.
Qed.

Record rm_post (d : nat) (n : node) (p : nat) (r : rres) (y : Item) (A B : list Item) : Prop := {
  R_old : flat n = A ++ y :: B;
  R_pos : length A = p;
  R_new : flat (rnode r) = A ++ B;
  R_wf : wf d (rnode r);
  R_upd : match rupd r with Some k => first_ok k (rnode r) | None => flat (rnode r) = [] \/ same_first n (rnode r) end;
  R_touch : forall k, rtouch r = Some k -> first_ok k (rnode r);
  R_comp : flat (rnode r) = [] -> rcomp r = true }.

Lemma rm_leaf l p path q : wf 0 (Leaf l) -> rank (Leaf l) (p :: path) = Some q ->
  exists r y A B, rm getIndex less eqI cap (Leaf l) (p :: path) = Some (r, y) /\ rm_post 0 (Leaf l) q r y A B.
Proof.
  intros Hw. cbn [rank]. destruct path; [|discriminate]. destruct (Nat.ltb_spec p (length l)) as [Hp|]; [|discriminate]. intros Q. injection Q as <-.
  cbn [rm]. destruct (nth_ex l p Hp) as (y & Ey). rewrite Ey. cbv zeta. pose proof (nth_split_eq _ _ _ Ey) as El.
  set (A := firstn p l) in *. set (B := skipn (S p) l) in *. assert (LA : length A = p) by (apply firstn_length_le; lia). clearbody A B. subst p l.
  rewrite delete_at_app. eexists _, y, A, B. split; [reflexivity|]. cbn [wf] in Hw. rewrite app_length in Hw. cbn [length] in Hw.
  split; cbn [rnode rupd rtouch rcomp flat wf]; auto.
  - rewrite app_length. lia.
  - destruct A as [|a0 A]; cbn [length app]; [destruct B as [|b0 B]|].
    + left. reflexivity.
    + exists b0, B. split; [reflexivity|apply eqv_refl].
    + right. intros z t E. cbn [flat app] in *. injection E as <- _. do 2 eexists. split; [reflexivity|apply eqv_refl].
  - intros k. destruct A as [|a0 A]; cbn [length app]; [destruct B as [|b0 B]|]; try discriminate. intros Q. injection Q as <-.
    exists b0, B. split; [reflexivity|apply eqv_refl].
Qed.

Lemma sorted_delete A y B : sorted (A ++ y :: B) -> sorted (A ++ B).
Proof.
  clear SW HeqI Hcap.
  intros H. apply sorted_app in H. destruct H as (H1 & H2 & H3). inversion H2; subst. apply sorted_app. split; [assumption|]. split; [assumption|].
  intros x z Hx Hz. apply H3; [exact Hx|right; exact Hz].
Qed.

Lemma LK_in d l k c : LK d l -> In (k, c) l -> exists y, In y (flatl l) /\ eqv k (key y).
Proof.
  intros H Hi. unfold LK in H. rewrite Forall_forall in H. destruct (H _ Hi) as (_ & y & t & E & Q). cbn [fst snd] in *. exists y. split; [|exact Q].
  apply in_flat_map. exists (k, c). split; [exact Hi|]. cbn [snd]. rewrite E. left. reflexivity.
Qed.

Lemma rm_ok d : forall n path p, wf d n -> sorted (flat n) -> rank n path = Some p ->
  exists r y A B, rm getIndex less eqI cap n path = Some (r, y) /\ rm_post d n p r y A B.
Proof.
  induction d as [|d IH]; intros n path p Hw Hs Hr; (destruct path as [|i path]; [discriminate|]); destruct n as [l|links]; cbn [wf] in Hw; try contradiction.
  - apply rm_leaf; assumption.
  - destruct Hw as (Hlen & HK). change (LK d links) in HK. cbn [rank] in Hr. assert (Hr' : match nth_error links i with
      | None => None | Some (_, c) => match rank c path with Some r => Some (length (flatl (firstn i links)) + r)%nat | None => None end end = Some p).
    { destruct path; exact Hr. } clear Hr. rename Hr' into Hr.
    destruct (nth_error links i) as [(ki, c)|] eqn:Ec; [|discriminate]. destruct (rank c path) as [q|] eqn:Eq; [|discriminate]. injection Hr as Hr.
    pose proof (nth_lt _ _ _ Ec) as Hi. pose proof (nth_split_eq _ _ _ Ec) as Esp. set (L := firstn i links) in *. set (R := skipn (S i) links) in *.
    assert (Li : length L = i) by (subst L; apply firstn_length_le; lia). cbn [rm]. rewrite Ec. clear Ec.
    rewrite Esp in Hlen, HK, Hs |- *. clear Esp Hi. clearbody L R. subst i.
    cbn [flat] in Hs. fold (flatl (L ++ (ki, c) :: R)) in Hs. rewrite flatl_app, flatl_cons in Hs. cbn [snd] in Hs.
    apply LK_app in HK. destruct HK as (KL & HK). apply LK_cons in HK. destruct HK as ((Wc & Fc) & KR). cbn [fst snd] in *.
    pose proof Hs as Hs0. apply sorted_app in Hs0. destruct Hs0 as (_ & Hs0 & _). apply sorted_app in Hs0. destruct Hs0 as (Sc & _ & _).
    destruct (IH c path q Wc Sc Eq) as (r & y & A & B & -> & HP). cbv zeta. rewrite upd_at_app.
    set (k1 := match rupd r with Some k => k | None => ki end).
    assert (F1 : flat (rnode r) = [] \/ first_ok k1 (rnode r)).
    { pose proof (R_upd _ _ _ _ _ _ _ HP) as H. subst k1. destruct (rupd r); [right; exact H|]. destruct H as [H|H]; [left; exact H|]. right.
      destruct Fc as (z & s & Ez & Q). destruct (H z s Ez) as (z' & s' & Ez' & Q'). exists z', s'. split; [exact Ez'|]. apply (eqv_trans _ (key z)); assumption. }
    assert (Sn : sorted (flatl L ++ flat (rnode r) ++ flatl R)).
    { rewrite (R_old _ _ _ _ _ _ _ HP) in Hs. rewrite (R_new _ _ _ _ _ _ _ HP). rewrite <- app_assoc in *. cbn [app] in Hs. rewrite app_assoc in Hs.
      apply sorted_delete in Hs. rewrite <- app_assoc in Hs. exact Hs. }
    assert (T : exists k2 t, match rtouch r with
                 | None => Some (L ++ (k1, rnode r) :: R, None)
                 | Some k => match touch less eqI (L ++ (k1, rnode r) :: R) (length L) k with Some (l, b) => Some (l, if b then Some k else None) | None => None end
                 end = Some (L ++ (k2, rnode r) :: R, t) /\ (flat (rnode r) = [] \/ first_ok k2 (rnode r)) /\ (forall k, t = Some k -> L = [] /\ first_ok k (rnode r))).
    { pose proof (R_touch _ _ _ _ _ _ _ HP) as HT. destruct (rtouch r) as [k|].
      2:{ exists k1, None. split; [reflexivity|]. split; [exact F1|discriminate]. }
      specialize (HT k eq_refl). pose proof HT as HT'. destruct HT as (z & s & Ez & Qz).
      apply sorted_app in Sn. destruct Sn as (_ & Sn & SnL). apply sorted_app in Sn. destruct Sn as (_ & _ & SnR).
      destruct (touch_ok L k1 (rnode r) R k) as (k2 & b & -> & Q2 & Qb).
      - intros kk cc Hi. destruct (LK_in d L kk cc KL Hi) as (w & Hw & Qw). apply (neg _ (key z)); [exact (proj1 Qz)|]. apply (neg _ (key w)); [|exact (proj2 Qw)].
        apply (SnL w z Hw). apply in_app_iff. left. rewrite Ez. left. reflexivity.
      - intros kk cc Hi. destruct (LK_in d R kk cc KR Hi) as (w & Hw & Qw). apply (neg _ (key w)); [exact (proj1 Qw)|]. apply (neg _ (key z)); [|exact (proj2 Qz)].
        apply (SnR z w); [|exact Hw]. rewrite Ez. left. reflexivity.
      - exists k2, (if b then Some k else None). split; [reflexivity|]. split.
        + right. exists z, s. split; [exact Ez|]. apply (eqv_trans _ k); assumption.
        + intros k' E. destruct b; [|discriminate]. injection E as <-. split; [apply Qb; reflexivity|exact HT']. }
    destruct T as (k2 & t & -> & F2 & Ft). set (u := if (length L =? 0)%nat then rupd r else None).
    assert (Lens : (length (L ++ (k2, rnode r) :: R) <= cap)%nat) by (rewrite app_length in *; cbn [length] in *; exact Hlen).
    assert (Flt : forall z, L = [] -> first_ok z (rnode r) -> forall m, flat m = flatl L ++ flat (rnode r) ++ flatl R -> first_ok z m).
    { intros z -> Hz m Em. cbn [flatl flat_map app] in Em. exact (first_app _ _ _ _ Hz Em). }
    assert (Hn : flat (Inner (L ++ (ki, c) :: R)) = flatl L ++ flat c ++ flatl R) by (cbn [flat]; apply flat_map_app).
    assert (Post : forall r', flat (rnode r') = flatl L ++ flat (rnode r) ++ flatl R -> wf (S d) (rnode r') -> rtouch r' = t -> (flat (rnode r') = [] -> rcomp r' = true) ->
       ((flat (rnode r) = [] /\ rupd r' = match L, R with [], (k, _) :: _ => Some k | _, _ => u end) \/ (flat (rnode r) <> [] /\ rupd r' = u)) ->
       rm_post (S d) (Inner (L ++ (ki, c) :: R)) p r' y (flatl L ++ A) (B ++ flatl R)).
    { intros r' Ef Wf Et Hc Hu. split; auto.
      - rewrite Hn, (R_old _ _ _ _ _ _ _ HP), <- !app_assoc. reflexivity.
      - rewrite app_length, (R_pos _ _ _ _ _ _ _ HP). exact Hr.
      - rewrite Ef, (R_new _ _ _ _ _ _ _ HP), <- !app_assoc. reflexivity.
      - assert (SFL : L <> [] -> same_first (Inner (L ++ (ki, c) :: R)) (rnode r')).
        { intros HL z s Ez. rewrite Hn in Ez. rewrite Ef. destruct (flatl L) as [|w v] eqn:EL; [apply (flatl_nil d) in EL; [contradiction|exact KL]|].
          cbn [app] in *. injection Ez as <- _. do 2 eexists. split; [reflexivity|apply eqv_refl]. }
        destruct Hu as [(Hz & ->)|(Hz & ->)].
        + destruct L as [|e0 L0].
          * cbn [length Nat.eqb] in u. destruct R as [|(kk, cc) R0].
            -- subst u. pose proof (R_upd _ _ _ _ _ _ _ HP) as H. destruct (rupd r) as [k|].
               ++ destruct H as (z & s & Ez & _). congruence.
               ++ left. rewrite Ef, Hz. reflexivity.
            -- apply LK_cons in KR. destruct KR as ((_ & F) & _). cbn [fst snd] in F. apply (first_app _ cc _ (flatl R0)); [exact F|].
               rewrite Ef, Hz. reflexivity.
          * subst u. cbn [length Nat.eqb]. right. apply SFL. discriminate.
        + subst u. destruct (Nat.eqb_spec (length L) 0) as [HL|HL].
          * apply length_zero_iff_nil in HL. pose proof (R_upd _ _ _ _ _ _ _ HP) as H. destruct (rupd r) as [k|].
            -- exact (Flt k HL H _ Ef).
            -- right. destruct H as [H|H]; [contradiction|]. intros z s Ez. rewrite Hn in Ez. rewrite Ef. subst L. cbn [flatl flat_map app] in *.
               destruct Fc as (z0 & s0 & Ez0 & _). rewrite Ez0 in Ez. cbn [app] in Ez. injection Ez as <- _. destruct (H z0 s0 Ez0) as (z1 & s1 & -> & Q).
               cbn [app]. eauto.
          * right. apply SFL. intros ->. apply HL. reflexivity.
      - intros k Ek. rewrite Et in Ek. destruct (Ft k Ek) as (HL & HF). exact (Flt k HL HF _ Ef). }
    destruct (rcomp r) eqn:Erc.
    + destruct (tryCompact_ok d L k2 (rnode r) R u t KL KR (R_wf _ _ _ _ _ _ _ HP) F2 Lens) as (r' & -> & E1 & E2 & E3 & E4 & E5).
      exists r', y, (flatl L ++ A), (B ++ flatl R). split; [reflexivity|]. apply Post; assumption.
    + eexists _, y, (flatl L ++ A), (B ++ flatl R). split; [reflexivity|].
      assert (Nr : flat (rnode r) <> []) by (intros Q; rewrite (R_comp _ _ _ _ _ _ _ HP Q) in Erc; discriminate).
      apply Post; cbn [rnode rtouch rcomp rupd]; auto.
      * cbn [flat]. apply flat_map_app.
      * cbn [wf]. split; [exact Lens|]. apply Forall_app. split; [exact KL|]. constructor; [|exact KR]. split; [exact (R_wf _ _ _ _ _ _ _ HP)|]. cbn [fst snd].
        destruct F2; [contradiction|assumption].
      * cbn [flat]. rewrite flat_map_app. cbn [flat_map snd]. intros Q. apply app_eq_nil in Q. destruct Q as (_ & Q). apply app_eq_nil in Q. destruct Q. contradiction.
Qed.

Lemma remove_ok n l path p : holds (Some n) l -> rank n path = Some p ->
  exists t A y B, remove getIndex less eqI cap (Some n) path = Some (t, y) /\ l = A ++ y :: B /\ length A = p /\ holds t (A ++ B).
Proof.
  intros (Hs & Hf & Hne & d & Hw) Hr. rewrite <- Hf in *. clear Hf. unfold remove.
  destruct (rm_ok d n path p Hw Hs Hr) as (r & y & A & B & -> & HP).
  pose proof (R_old _ _ _ _ _ _ _ HP) as Po. pose proof (R_new _ _ _ _ _ _ _ HP) as Pn. pose proof (R_wf _ _ _ _ _ _ _ HP) as Pw.
  pose proof (R_comp _ _ _ _ _ _ _ HP) as Pc.
  assert (Sn : sorted (A ++ B)) by (rewrite Po in Hs; exact (sorted_delete _ _ _ Hs)).
  assert (G : exists t, holds t (A ++ B) /\ (if rcomp r then
        match rnode r with
        | Leaf [] | Inner [] => Some (None, y)
        | Inner [(_, c)] => Some (Some c, y)
        | n => Some (Some n, y)
        end
      else Some (Some (rnode r), y)) = Some (t, y)).
  { assert (Keep : flat (rnode r) <> [] -> holds (Some (rnode r)) (A ++ B)).
    { intros Hz. split; [exact Sn|]. split; [exact Pn|]. split; [congruence|]. exists d. exact Pw. }
    assert (Nil : flat (rnode r) = [] -> holds None (A ++ B)) by (intros Hz; split; [exact Sn|]; congruence).
    destruct (rcomp r).
    2:{ eexists. split; [|reflexivity]. apply Keep. intros Q. specialize (Pc Q). discriminate. }
    destruct (rnode r) as [[|w v]|[|(k1, c1) [|e v]]] eqn:Er.
    - eexists. split; [|reflexivity]. apply Nil. reflexivity.
    - eexists. split; [|reflexivity]. apply Keep. discriminate.
    - eexists. split; [|reflexivity]. apply Nil. reflexivity.
    - destruct d as [|d]; [destruct Pw|]. destruct Pw as (_ & Pw). apply Forall_cons_iff in Pw. destruct Pw as ((Pw & z & s & Ez & _) & _). cbn [fst snd] in *.
      eexists. split; [|reflexivity]. split; [exact Sn|]. cbn [flat flat_map snd] in Pn. rewrite app_nil_r in Pn. split; [exact Pn|]. split; [congruence|]. exists d. exact Pw.
    - eexists. split; [|reflexivity]. apply Keep. destruct d as [|d]; [destruct Pw|]. destruct Pw as (_ & Pw). intros Q. cbn [flat] in Q.
      apply (flatl_nil d) in Q; [discriminate|exact Pw]. }
  destruct G as (t & Ht & ->). exists t, A, y, B. split; [reflexivity|]. split; [exact Po|]. split; [exact (R_pos _ _ _ _ _ _ _ HP)|exact Ht].
Qed.

(* ---- moving through the tree ---- *)
Lemma rank_inner l i path : rank (Inner l) (i :: path) =
  match nth_error l i with
  | None => None
  | Some (_, c) => match rank c path with Some r => Some (length (flatl (firstn i l)) + r)%nat | None => None end
  end.
Proof. destruct path; reflexivity. Qed.
Lemma rank_leaf l p path q : rank (Leaf l) (p :: path) = Some q -> path = [] /\ q = p /\ (p < length l)%nat.
Proof. destruct path; cbn [rank]; [|discriminate]. destruct (Nat.ltb_spec p (length l)); [|discriminate]. intros Q. injection Q as <-. auto. Qed.

Lemma flatl_split l i k c : nth_error l i = Some (k, c) -> flatl l = flatl (firstn i l) ++ flat c ++ flatl (skipn (S i) l).
Proof. intros E. rewrite (nth_split_eq _ _ _ E) at 1. rewrite flatl_app, flatl_cons. reflexivity. Qed.
Lemma firstn_S (l : list (Index * node)) i x : nth_error l i = Some x -> firstn (S i) l = firstn i l ++ [x].
Proof.
  revert i. induction l as [|y l IH]; intros [|i] E; cbn [nth_error] in E; try discriminate.
  - injection E as ->. reflexivity.
  - cbn [firstn app]. f_equal. apply IH. exact E.
Qed.

Lemma rank_lt : forall path n p, rank n path = Some p -> (p < length (flat n))%nat /\ getItem n path = nth_error (flat n) p.
Proof.
  induction path as [|i path IH]; intros n p H; [discriminate|]. destruct n as [l|l].
  - apply rank_leaf in H. destruct H as (-> & -> & H). cbn [flat getItem]. auto.
  - rewrite rank_inner in H. destruct (nth_error l i) as [(k, c)|] eqn:E; [|discriminate]. destruct (rank c path) as [r|] eqn:Er; [|discriminate].
    injection H as <-. destruct (IH c r Er) as (G1 & G2). cbn [flat]. fold (flatl l). rewrite (flatl_split l i k c E), !app_length. split; [lia|].
    replace (getItem (Inner l) (i :: path)) with (getItem c path) by (cbn [getItem]; rewrite E; destruct path; reflexivity).
    rewrite nth_error_app2 by lia. rewrite nth_error_app1 by lia. rewrite G2. f_equal. lia.
Qed.

Lemma leftmost_ok d : forall n, wf d n -> flat n <> [] -> rank n (leftmost n) = Some 0%nat.
Proof.
  induction d as [|d IH]; intros [l|l] Hw Hn; cbn [wf] in Hw; try contradiction.
  - cbn [leftmost rank]. destruct l; [destruct Hn; reflexivity|reflexivity].
  - destruct Hw as (_ & HK). destruct l as [|(k, c) l]; [destruct Hn; reflexivity|]. apply Forall_cons_iff in HK. destruct HK as ((Hw & y & t & E & _) & _).
    cbn [fst snd] in *. cbn [leftmost]. rewrite rank_inner. cbn [nth_error firstn]. rewrite IH; [reflexivity|exact Hw|congruence].
Qed.

Fixpoint rgo (l : list (Index * node)) (i : nat) : list nat :=
  match l with [] => [] | [(_, c)] => i :: rightmost c | _ :: l => rgo l (S i) end.
Lemma rightmost_inner l : rightmost (Inner l) = rgo l 0.
Proof. reflexivity. Qed.
Lemma rgo_ok l k c : forall i, rgo (l ++ [(k, c)]) i = (i + length l)%nat :: rightmost c.
Proof.
  induction l as [|x l IH]; intros i; cbn [app length].
  - cbn [rgo]. rewrite Nat.add_0_r. reflexivity.
  - specialize (IH (S i)). destruct (l ++ [(k, c)]) as [|z s] eqn:E; [destruct l; discriminate|]. destruct x as (k0, c0).
    change (rgo (z :: s) (S i) = (i + S (length l))%nat :: rightmost c). rewrite IH. f_equal. lia.
Qed.
Lemma rightmost_ok d : forall n, wf d n -> flat n <> [] -> rank n (rightmost n) = Some (length (flat n) - 1)%nat.
Proof.
  induction d as [|d IH]; intros [l|l] Hw Hn; cbn [wf] in Hw; try contradiction.
  - cbn [rightmost rank flat] in *. destruct l; [congruence|]. cbn [length]. rewrite (proj2 (Nat.ltb_lt _ _)) by lia. reflexivity.
  - destruct Hw as (_ & HK). destruct l as [|(k, c) l0] using rev_ind; [destruct Hn; reflexivity|]. clear IHl0.
    apply Forall_app in HK. destruct HK as (_ & HK). apply Forall_cons_iff in HK. destruct HK as ((Hw & y & t & E & _) & _). cbn [fst snd] in *.
    rewrite rightmost_inner, rgo_ok, rank_inner. cbn [Nat.add]. rewrite nth_at_app, (IH c Hw) by congruence. f_equal.
    rewrite firstn_app, firstn_all, Nat.sub_diag. cbn [firstn]. rewrite app_nil_r. cbn [flat]. fold (flatl (l0 ++ [(k, c)])). rewrite flatl_app, flatl_cons.
    cbn [snd]. change (flatl []) with (@nil Item). rewrite app_nil_r, app_length, E. cbn [length]. lia.
Qed.

Definition at_ (n : node) (path : option (list nat)) (p : nat) : Prop :=
  match path with Some q => rank n q = Some p | None => p = length (flat n) end.
Definition atb (n : node) (path : option (list nat)) (p : nat) : Prop :=
  match path with Some q => exists p', p = S p' /\ rank n q = Some p' | None => p = 0%nat end.

Lemma next_inner l i path : next (Inner (Item := Item) (Index := Index) l) (i :: path) =
  match nth_error l i with
  | None => None
  | Some (_, c) =>
    match next c path with
    | Some p => Some (i :: p)
    | None => match nth_error l (S i) with Some (_, c) => Some (S i :: leftmost c) | None => None end
    end
  end.
Proof. destruct path; reflexivity. Qed.
Lemma prev_inner l i path : prev (Inner (Item := Item) (Index := Index) l) (i :: path) =
  match nth_error l i with
  | None => None
  | Some (_, c) =>
    match prev c path with
    | Some p => Some (i :: p)
    | None => match i with O => None | S i => match nth_error l i with Some (_, c) => Some (i :: rightmost c) | None => None end end
    end
  end.
Proof. destruct path; reflexivity. Qed.

Lemma LK_nth d l i k c : LK d l -> nth_error l i = Some (k, c) -> wf d c /\ flat c <> [].
Proof.
  intros H E. unfold LK in H. rewrite Forall_forall in H. destruct (H _ (nth_error_In _ _ E)) as (Hw & y & t & Q & _). cbn [snd] in *. split; [exact Hw|congruence].
Qed.

Lemma next_ok d : forall n path p, wf d n -> rank n path = Some p -> at_ n (next n path) (S p).
Proof.
  induction d as [|d IH]; intros [l|l] [|i path] p Hw H; try discriminate; cbn [wf] in Hw; try contradiction.
  - apply rank_leaf in H. destruct H as (-> & -> & H). cbn [next]. destruct (Nat.ltb_spec (i + 1) (length l)) as [Hi|Hi]; cbn [at_ rank flat].
    + rewrite (proj2 (Nat.ltb_lt _ _) Hi). f_equal. lia.
    + lia.
  - destruct Hw as (_ & HK). change (LK d l) in HK. rewrite rank_inner in H. rewrite next_inner.
    destruct (nth_error l i) as [(k, c)|] eqn:E; [|discriminate]. destruct (rank c path) as [r|] eqn:Er; [|discriminate]. injection H as <-.
    destruct (LK_nth _ _ _ _ _ HK E) as (Wc & Nc). specialize (IH c path r Wc Er). destruct (next c path) as [q|]; cbn [at_] in IH.
    + cbn [at_]. rewrite rank_inner, E, IH. f_equal. lia.
    + destruct (nth_error l (S i)) as [(k1, c1)|] eqn:E1; cbn [at_].
      * destruct (LK_nth _ _ _ _ _ HK E1) as (W1 & N1). rewrite rank_inner, E1, (leftmost_ok d c1 W1 N1). f_equal.
        rewrite (firstn_S _ _ _ E), flatl_app, app_length, flatl_cons. cbn [snd]. change (flatl []) with (@nil Item). rewrite app_nil_r. lia.
      * cbn [flat]. fold (flatl l). rewrite (flatl_split l i k c E), !app_length.
        rewrite (skipn_all2 (n := S i) l) by (apply nth_error_None; exact E1). cbn [flatl flat_map length]. lia.
Qed.
Lemma prev_ok d : forall n path p, wf d n -> rank n path = Some p -> atb n (prev n path) p.
Proof.
  induction d as [|d IH]; intros [l|l] [|i path] p Hw H; try discriminate; cbn [wf] in Hw; try contradiction.
  - apply rank_leaf in H. destruct H as (-> & -> & H). cbn [prev]. destruct i as [|i]; cbn [atb rank]; [reflexivity|].
    exists i. split; [reflexivity|]. rewrite (proj2 (Nat.ltb_lt _ _)) by lia. reflexivity.
  - destruct Hw as (_ & HK). change (LK d l) in HK. rewrite rank_inner in H. rewrite prev_inner.
    destruct (nth_error l i) as [(k, c)|] eqn:E; [|discriminate]. destruct (rank c path) as [r|] eqn:Er; [|discriminate]. injection H as <-.
    destruct (LK_nth _ _ _ _ _ HK E) as (Wc & Nc). specialize (IH c path r Wc Er). destruct (prev c path) as [q|]; cbn [atb] in IH.
    + destruct IH as (p' & -> & IH). cbn [atb]. rewrite rank_inner, E, IH. exists (length (flatl (firstn i l)) + p')%nat. split; [lia|reflexivity].
    + subst r. destruct i as [|i]; [reflexivity|]. destruct (nth_ex l i ltac:(apply nth_lt in E; lia)) as ((k1 & c1) & E1). rewrite E1. cbn [atb].
      destruct (LK_nth _ _ _ _ _ HK E1) as (W1 & N1). rewrite rank_inner, E1, (rightmost_ok d c1 W1 N1). eexists. split; [|reflexivity].
      rewrite (firstn_S _ _ _ E1), flatl_app, app_length, flatl_cons. cbn [snd]. change (flatl []) with (@nil Item). rewrite app_nil_r.
      destruct (flat c1); [congruence|]. cbn [length]. lia.
Qed.

Lemma skipn_nth {A} (l : list A) p y : nth_error l p = Some y -> skipn p l = y :: skipn (S p) l.
Proof.
  revert p. induction l as [|x l IH]; intros [|p] E; cbn [nth_error] in E; try discriminate.
  - injection E as ->. reflexivity.
  - cbn [skipn]. apply IH. exact E.
Qed.
Lemma firstn_nth {A} (l : list A) p y : nth_error l p = Some y -> firstn (S p) l = firstn p l ++ [y].
Proof.
  revert p. induction l as [|x l IH]; intros [|p] E; cbn [nth_error] in E; try discriminate.
  - injection E as ->. reflexivity.
  - cbn [firstn app]. f_equal. apply IH. exact E.
Qed.
Lemma from_ok d n : wf d n -> forall fuel path p, at_ n path p -> (length (flat n) - p <= fuel)%nat -> from fuel n path = Some (skipn p (flat n)).
Proof.
  intros Hw. induction fuel as [|fuel IH]; intros [q|] p H Hf; cbn [at_] in H; cbn [from].
  - destruct (rank_lt q n p H). lia.
  - subst p. rewrite skipn_all. reflexivity.
  - destruct (rank_lt q n p H) as (H1 & ->). destruct (nth_ex (flat n) p H1) as (y & E). rewrite E.
    rewrite (IH _ (S p)); [|apply (next_ok d); assumption|lia]. cbn [option_map]. f_equal. symmetry. apply skipn_nth. exact E.
  - subst p. rewrite skipn_all. reflexivity.
Qed.
Lemma back_ok d n : wf d n -> forall fuel path p, atb n path p -> (p <= fuel)%nat -> back fuel n path = Some (rev (firstn p (flat n))).
Proof.
  intros Hw. induction fuel as [|fuel IH]; intros [q|] p H Hf; cbn [atb] in H; cbn [back].
  - destruct H as (p' & -> & _). lia.
  - subst p. reflexivity.
  - destruct H as (p' & -> & H). destruct (rank_lt q n p' H) as (H1 & ->). destruct (nth_ex (flat n) p' H1) as (y & E). rewrite E.
    rewrite (IH _ p'); [|apply (prev_ok d); assumption|lia]. cbn [option_map]. rewrite (firstn_nth _ _ _ E), rev_app_distr. reflexivity.
  - subst p. reflexivity.
Qed.
Lemma advance_ok d n : wf d n -> forall j path p, at_ n path p -> (p <= length (flat n))%nat -> at_ n (advance j n path) (Nat.min (length (flat n)) (p + j)).
Proof.
  intros Hw. induction j as [|j IH]; intros path p H Hp.
  - replace (Nat.min (length (flat n)) (p + 0)) with p by lia. destruct path; exact H.
  - destruct path as [q|]; cbn [advance].
    + cbn [at_] in H. replace (p + S j)%nat with (S p + j)%nat by lia. apply IH; [apply (next_ok d); assumption|]. destruct (rank_lt q n p H). lia.
    + cbn [at_] in *. lia.
Qed.

Fixpoint cgo (l : list (Index * node)) : nat := match l with [] => O | (_, c) :: l => (count c + cgo l)%nat end.
Lemma count_inner l : count (Inner l) = cgo l.
Proof. reflexivity. Qed.
Lemma count_ok d : forall n, wf d n -> count n = length (flat n).
Proof.
  induction d as [|d IH]; intros [l|l] Hw; cbn [wf] in Hw; try contradiction; [reflexivity|].
  destruct Hw as (_ & HK). rewrite count_inner. cbn [flat]. clear -IH HK. induction l as [|(k, c) l IHl]; [reflexivity|].
  apply Forall_cons_iff in HK. destruct HK as ((Hw & _) & HK). cbn [cgo flat_map snd] in *. rewrite app_length, (IH c Hw), (IHl HK). reflexivity.
Qed.

Lemma descend_ok k d : forall n, wf d n -> flat n <> [] -> sorted (flat n) ->
  exists q pos s o a b, descend getIndex less n k d = Some (q, pos, s) /\ (0 < s)%nat /\ (pos <= s)%nat /\
    flat n = a ++ b /\ length a = (o + pos)%nat /\ (forall j, (j < s)%nat -> rank n (q ++ [j]) = Some (o + j)%nat) /\
    Forall (fun y => less (key y) k = true) a /\ Forall (fun y => less (key y) k = false) b.
Proof.
  induction d as [|d IH]; intros [l|links] Hw Hn Hs; cbn [wf] in Hw; try contradiction.
  - cbn [descend flat] in *. destruct (gePos_ok l k Hs) as (a & b & E & -> & Ha & Hb). exists [], (length a), (length l), 0%nat, a, b.
    split; [reflexivity|]. split; [destruct l; [congruence|cbn [length]; lia]|]. split; [subst l; rewrite app_length; lia|]. split; [exact E|]. split; [reflexivity|].
    split; [|auto]. intros j Hj. cbn [app rank]. rewrite (proj2 (Nat.ltb_lt _ _) Hj). reflexivity.
  - destruct Hw as (Hlen & HK). change (LK d links) in HK. cbn [descend].
    assert (Hl : links <> []) by (intros ->; apply Hn; reflexivity).
    destruct (getLast_ok links k Hl) as (i & -> & Hi & Hlo & Hhi).
    destruct (nth_ex links i Hi) as ((ki & c) & Ec). rewrite Ec.
    pose proof (nth_split_eq _ _ _ Ec) as Esp. set (L := firstn i links) in *. set (R := skipn (S i) links) in *.
    assert (Li : length L = i) by (subst L; apply firstn_length_le; lia).
    rewrite Esp in HK, Hs, Hhi, Hlo, Ec |- *. clear Esp. clearbody L R. subst i.
    rewrite nth_at_app1 in Hhi. rewrite nth_at_app in Hlo.
    assert (H1 : L = [] \/ less ki k = true).
    { destruct Hlo as [H|(k' & c' & H & H')]; [left; apply length_zero_iff_nil; exact H|]. injection H as -> _. right. exact H'. }
    cbn [flat] in Hs. fold (flatl (L ++ (ki, c) :: R)) in Hs.
    destruct (around L ki c R k d Hs HK H1 Hhi) as (AL & AR & SL & Sc & SR).
    apply LK_app in HK. destruct HK as (KL & HK). apply LK_cons in HK. destruct HK as ((Wc & Fc) & KR). cbn [fst snd] in *.
    assert (Nc : flat c <> []) by (destruct Fc as (y & t & Ey & _); congruence).
    destruct (IH c Wc Nc Sc) as (q & pos & s & o & a & b & -> & G1 & G2 & G3 & G4 & G5 & G6 & G7).
    exists (length L :: q), pos, s, (length (flatl L) + o)%nat, (flatl L ++ a), (b ++ flatl R).
    split; [reflexivity|]. split; [exact G1|]. split; [exact G2|].
    split. { cbn [flat]. rewrite flat_map_app. cbn [flat_map snd]. rewrite G3, <- !app_assoc. reflexivity. }
    split; [rewrite app_length; lia|]. split.
    { intros j Hj. cbn [app]. rewrite rank_inner, nth_at_app, (G5 j Hj), firstn_app, firstn_all, Nat.sub_diag. cbn [firstn]. rewrite app_nil_r. f_equal. lia. }
    split; apply Forall_app; auto.
Qed.

Lemma filter_true {A} (f : A -> bool) l : Forall (fun y => f y = true) l -> filter f l = l.
Proof. induction 1 as [|y l Hy _ IH]; [reflexivity|]. cbn [filter]. rewrite Hy, IH. reflexivity. Qed.
Lemma filter_false {A} (f : A -> bool) l : Forall (fun y => f y = false) l -> filter f l = [].
Proof. induction 1 as [|y l Hy _ IH]; [reflexivity|]. cbn [filter]. rewrite Hy, IH. reflexivity. Qed.
Lemma split_ok k a b : Forall (fun y => less (key y) k = true) a -> Forall (fun y => less (key y) k = false) b ->
  below getIndex less k (a ++ b) = a /\ above getIndex less k (a ++ b) = b.
Proof.
  intros Ha Hb. unfold below, above. rewrite !filter_app. rewrite (filter_true _ a Ha), (filter_false _ b Hb), app_nil_r. split; [reflexivity|].
  rewrite filter_false, filter_true; [reflexivity| |].
  - eapply Forall_impl; [|exact Hb]. cbn beta. intros y ->. reflexivity.
  - eapply Forall_impl; [|exact Ha]. cbn beta. intros y ->. reflexivity.
Qed.

Lemma ge_ok n l k : holds (Some n) l -> exists path, findFirstGreaterOrEqualTo getIndex less (Some n) k = Some path /\
  at_ n path (length (below getIndex less k l)) /\ below getIndex less k l ++ above getIndex less k l = l.
Proof.
  intros (Hs & Hf & Hne & d & Hw). rewrite <- Hf in *. clear Hf. unfold findFirstGreaterOrEqualTo. rewrite (height_ok d n Hw (or_introl Hne)).
  destruct (descend_ok k d n Hw Hne Hs) as (q & pos & s & o & a & b & -> & G1 & G2 & G3 & G4 & G5 & G6 & G7).
  rewrite G3. destruct (split_ok k a b G6 G7) as (-> & ->).
  destruct (Nat.leb_spec s pos) as [H|H]; (eexists; split; [reflexivity|]; split; [|reflexivity]).
  - specialize (G5 (s - 1)%nat ltac:(lia)). apply (next_ok d) in G5; [|exact Hw]. replace (length a) with (S (o + (s - 1))) by lia. exact G5.
  - cbn [at_]. rewrite (G5 pos H). f_equal. lia.
Qed.
Lemma lt_ok n l k : holds (Some n) l -> exists path, findLastLessThan getIndex less (Some n) k = Some path /\
  atb n path (length (below getIndex less k l)) /\ below getIndex less k l ++ above getIndex less k l = l.
Proof.
  intros (Hs & Hf & Hne & d & Hw). rewrite <- Hf in *. clear Hf. unfold findLastLessThan. rewrite (height_ok d n Hw (or_introl Hne)).
  destruct (descend_ok k d n Hw Hne Hs) as (q & pos & s & o & a & b & -> & G1 & G2 & G3 & G4 & G5 & G6 & G7).
  rewrite G3. destruct (split_ok k a b G6 G7) as (-> & ->).
  destruct pos as [|pos]; (eexists; split; [reflexivity|]; split; [|reflexivity]).
  - specialize (G5 0%nat G1). apply (prev_ok d) in G5; [|exact Hw]. replace (length a) with (o + 0)%nat by lia. exact G5.
  - cbn [atb]. exists (o + pos)%nat. split; [lia|]. apply G5. lia.
Qed.

(* ---- runs ---- *)
Notation spec_step := (spec_step getIndex less).
Notation spec_run := (spec_run getIndex less).
Lemma holds_nil l : holds None l -> l = [].
Proof. intros (_ & H). exact H. Qed.

Lemma removal_app (A B : list Item) y : removal (A ++ y :: B) (A ++ B) (length A).
Proof. unfold removal. fold (delete_at (A ++ y :: B) (length A)). rewrite delete_at_app. reflexivity. Qed.
Lemma removal_all (l : list Item) p : (length l <= p)%nat -> removal l l p.
Proof. intros H. unfold removal. rewrite firstn_all2, skipn_all2 by lia. rewrite app_nil_r. reflexivity. Qed.

Lemma step_ok t l o : holds t l -> match step getIndex less eqI cap t o with
  | Some (t', y) => exists l', spec_step l o y l' /\ holds t' l'
  | None => l = [] /\ (o = PopFront \/ o = Front)
  end.
Proof.
  intros H.
  assert (RA : forall n path p, holds (Some n) l -> at_ n path p -> exists t' y,
     match path with None => Some (Some n, Removed None) | Some p => match remove getIndex less eqI cap (Some n) p with Some (t, y) => Some (t, Removed (Some y)) | None => None end end
      = Some (t', Removed y) /\ exists l', holds t' l' /\ removal l l' p /\ y = nth_error l p).
  { intros n [q|] p Hn Ha; cbn [at_] in Ha.
    - destruct (remove_ok n l q p Hn Ha) as (t' & A & y & B & -> & E & Lp & Ht). do 2 eexists. split; [reflexivity|]. exists (A ++ B). split; [exact Ht|].
      subst l p. split; [apply removal_app|]. rewrite nth_at_app. reflexivity.
    - do 2 eexists. split; [reflexivity|]. exists l. split; [exact Hn|]. destruct Hn as (_ & <- & _). split; [apply removal_all; lia|]. symmetry. apply nth_error_None. lia. }
  destruct o as [x|j|k| | | | | |k|k]; unfold step; cbv zeta.
  - destruct (insert_ok t l x H) as (n & a & b & -> & E & Hs & Hn). eexists. split; [|exact Hn]. apply sp_insert; assumption.
  - destruct t as [n|].
    + pose proof H as H'. destruct H' as (_ & Hf & Hne & d & Hw).
      assert (Ha : at_ n (advance j n (Some (leftmost n))) (Nat.min (length (flat n)) (0 + j))).
      { apply (advance_ok d); [exact Hw| |lia]. cbn [at_]. apply (leftmost_ok d); congruence || assumption. }
      destruct (RA n _ _ H Ha) as (t' & y & -> & l' & Ht & Hr & ->). exists l'. split; [|exact Ht]. rewrite Hf in *. cbn [Nat.add] in *.
      destruct (Nat.le_gt_cases (length l) j) as [Hj|Hj].
      * replace (Nat.min (length l) j) with (length l) in * by lia. assert (l' = l) as -> by (unfold removal in Hr; rewrite firstn_all, skipn_all2, app_nil_r in Hr by lia; exact Hr).
        replace (nth_error l (length l)) with (nth_error l j) by (rewrite !(proj2 (nth_error_None _ _)) by lia; reflexivity).
        apply sp_nth. apply removal_all. exact Hj.
      * replace (Nat.min (length l) j) with j in * by lia. apply sp_nth. exact Hr.
    + apply holds_nil in H as Hl. subst l. exists []. split; [|exact H]. replace (@None Item) with (nth_error (@nil Item) j) by (destruct j; reflexivity).
      apply sp_nth. apply removal_all. cbn [length]. lia.
  - destruct t as [n|].
    + destruct (ge_ok n l k H) as (path & -> & Ha & E). destruct (RA n path _ H Ha) as (t' & y & -> & l' & Ht & Hr & ->). exists l'. split; [|exact Ht].
      replace (nth_error l (length (below getIndex less k l))) with (hd_error (above getIndex less k l)).
      2:{ rewrite <- E at 2. rewrite nth_error_app2, Nat.sub_diag by lia. destruct (above getIndex less k l); reflexivity. }
      apply sp_ge. exact Hr.
    + apply holds_nil in H as Hl. subst l. exists []. split; [|exact H]. apply (sp_ge getIndex less [] k []). apply removal_all. cbn [length]. lia.
  - destruct t as [n|].
    + pose proof H as H'. destruct H' as (_ & Hf & Hne & d & Hw).
      assert (Ha : at_ n (Some (leftmost n)) 0) by (cbn [at_]; apply (leftmost_ok d); congruence || assumption).
      destruct (RA n _ _ H Ha) as (t' & y & E & l' & Ht & Hr & Ey). rewrite E. exists l'. split; [|exact Ht]. destruct l as [|x l]; [congruence|]. cbn [nth_error] in Ey. subst y.
      unfold removal in Hr. cbn [firstn skipn app] in Hr. subst l'. apply sp_pop. reflexivity.
    + apply holds_nil in H. auto.
  - destruct t as [n|].
    + pose proof H as H'. destruct H' as (_ & Hf & Hne & d & Hw).
      assert (Ha : rank n (leftmost n) = Some 0%nat) by (apply (leftmost_ok d); congruence || assumption).
      destruct (rank_lt _ _ _ Ha) as (_ & ->). rewrite Hf. destruct l as [|x l]; [congruence|]. cbn [nth_error]. exists (x :: l). split; [|exact H].
      eapply sp_front. reflexivity.
    + apply holds_nil in H. auto.
  - exists l. split; [|exact H]. replace (match t with Some _ => false | None => true end) with (match l with [] => true | _ => false end); [apply sp_empty|].
    destruct t as [n|]; [destruct H as (_ & _ & Hne & _); destruct l; [congruence|reflexivity]|]. apply holds_nil in H. subst l. reflexivity.
  - exists []. split; [apply sp_clear|]. split; [constructor|reflexivity].
  - destruct t as [n|]; unfold walk.
    + pose proof H as H'. destruct H' as (_ & Hf & Hne & d & Hw). rewrite (count_ok d n Hw), (from_ok d n Hw _ _ 0).
      * cbn [skipn]. rewrite Hf. exists l. split; [apply sp_all|exact H].
      * cbn [at_]. apply (leftmost_ok d); congruence || assumption.
      * lia.
    + apply holds_nil in H as Hl. subst l. exists []. split; [apply sp_all|exact H].
  - destruct t as [n|]; unfold walk.
    + pose proof H as H'. destruct H' as (_ & Hf & Hne & d & Hw). destruct (ge_ok n l k H) as (path & -> & Ha & E).
      rewrite (count_ok d n Hw), (from_ok d n Hw _ _ _ Ha) by lia. exists l. split; [|exact H]. rewrite Hf.
      replace (skipn (length (below getIndex less k l)) l) with (above getIndex less k l); [apply sp_from|].
      rewrite <- E at 3. rewrite skipn_app, skipn_all, Nat.sub_diag. reflexivity.
    + apply holds_nil in H as Hl. subst l. exists []. split; [apply (sp_from getIndex less [] k)|exact H].
  - destruct t as [n|]; unfold walk.
    + pose proof H as H'. destruct H' as (_ & Hf & Hne & d & Hw). destruct (lt_ok n l k H) as (path & -> & Ha & E).
      assert (Hlen : (length (below getIndex less k l) <= length (flat n))%nat) by (rewrite Hf; apply (f_equal (@length Item)) in E; rewrite app_length in E; lia).
      rewrite (count_ok d n Hw), (back_ok d n Hw _ _ _ Ha Hlen). exists l. split; [|exact H]. rewrite Hf.
      replace (firstn (length (below getIndex less k l)) l) with (below getIndex less k l); [apply sp_below|].
      rewrite <- E at 3. rewrite firstn_app, firstn_all, Nat.sub_diag. cbn [firstn]. rewrite app_nil_r. reflexivity.
    + apply holds_nil in H as Hl. subst l. exists []. split; [apply (sp_below getIndex less [] k)|exact H].
Qed.

Lemma run_ok os : forall t l, holds t l -> match run getIndex less eqI cap t os with
  | Some (t', ys) => exists l', spec_run l os ys l' /\ holds t' l'
  | None => exists os1 o os2 t1 ys, os = os1 ++ o :: os2 /\ run getIndex less eqI cap t os1 = Some (t1, ys) /\ spec_run l os1 ys [] /\ (o = PopFront \/ o = Front)
  end.
Proof.
  induction os as [|o os IH]; intros t l H; cbn [run].
  - exists l. split; [constructor|exact H].
  - pose proof (step_ok t l o H) as Hst. destruct (step getIndex less eqI cap t o) as [(t1, y)|] eqn:E1.
    + destruct Hst as (l1 & S1 & H1). pose proof (IH t1 l1 H1) as HI. destruct (run getIndex less eqI cap t1 os) as [(t2, ys)|] eqn:E2.
      * destruct HI as (l2 & S2 & H2). exists l2. split; [econstructor; eassumption|exact H2].
      * destruct HI as (os1 & o' & os2 & t2 & ys & -> & E3 & S2 & Q). exists (o :: os1), o', os2, t2, (y :: ys). split; [reflexivity|].
        cbn [run]. rewrite E1, E3. split; [reflexivity|]. split; [econstructor; eassumption|exact Q].
    + destruct Hst as (-> & Q). exists [], o, os, t, []. split; [reflexivity|]. split; [reflexivity|]. split; [constructor|exact Q].
Qed.

Lemma runs_ok os : match run getIndex less eqI cap None os with
  | Some (_, ys) => exists l, spec_run [] os ys l
  | None => exists os1 o os2 t1 ys, os = os1 ++ o :: os2 /\ run getIndex less eqI cap None os1 = Some (t1, ys) /\ spec_run [] os1 ys [] /\ (o = PopFront \/ o = Front)
  end.
Proof.
  assert (H : holds None []) by (split; [constructor|reflexivity]). pose proof (run_ok os None [] H) as R.
  destruct (run getIndex less eqI cap None os) as [(t, ys)|]; [|exact R]. destruct R as (l & R & _). exists l. exact R.
Qed.

Lemma spec_sorted l os ys l' : sorted l -> spec_run l os ys l' -> sorted l'.
Proof.
  clear SW HeqI Hcap. intros Hl H. induction H as [|l o y l1 os ys l2 S R IH]; [exact Hl|]. apply IH. clear IH R.
  assert (Rm : forall p m, removal l m p -> sorted m).
  { intros p m ->. destruct (nth_error l p) as [y0|] eqn:E.
    - rewrite (nth_split_eq _ _ _ E) in Hl. exact (sorted_delete _ _ _ Hl).
    - apply nth_error_None in E. rewrite firstn_all2, skipn_all2, app_nil_r by lia. exact Hl. }
  destruct S; try assumption; try (eapply Rm; eassumption).
  - subst l. inversion Hl; assumption.
  - constructor.
Qed.

(* ---- equal keys, in a tree of one leaf ---- *)
Definition same_key k (y : Item) : bool := negb (less (key y) k) && negb (less k (key y)).
Lemma insert_leaf l x : sorted l -> (length l < cap)%nat -> exists a b, l = a ++ b /\ sorted (a ++ x :: b) /\
  insert getIndex less eqI cap (match l with [] => None | _ => Some (Leaf l) end) x = Some (Leaf (a ++ x :: b)) /\
  Forall (fun y => less (key x) (key y) = true) b.
Proof.
  intros Hs Hl. destruct (bisect_split (fun k => less (key x) k) l Hs) as (a & b & E & Hb & H1 & H2).
  { intros y z Hyz Hy. apply (less_le_trans _ (key y)); assumption. }
  exists a, b. split; [exact E|]. split.
  { apply sorted_insert; [rewrite <- E; exact Hs|exact H1|]. eapply Forall_impl; [|exact H2]. intros y Hy. apply less_asym. exact Hy. }
  split; [|exact H2]. unfold insert. replace (match match l with [] => None | _ :: _ => Some (Leaf l) end with Some n => n | None => @Leaf Item Index [] end) with (@Leaf Item Index l).
  2:{ destruct l; reflexivity. }
  cbn [height ins]. unfold ins_leaf, findInsertPos. rewrite Hb. replace (cap <=? length l)%nat with false by lia.
  subst l. rewrite insertItemAt_ok by exact Hl. reflexivity.
Qed.
Lemma filter_insert k a b x : Forall (fun y => less (key x) (key y) = true) b ->
  filter (same_key k) (a ++ x :: b) = filter (same_key k) (a ++ b) ++ filter (same_key k) [x].
Proof.
  intros H. rewrite !filter_app. cbn [filter]. destruct (same_key k x) eqn:E; [|rewrite app_nil_r; reflexivity].
  rewrite (filter_false (same_key k) b), app_nil_r; [reflexivity|]. eapply Forall_impl; [|exact H]. cbn beta. intros y Hy.
  unfold same_key in *. destruct (less (key y) k) eqn:E1; [reflexivity|]. destruct (less k (key y)) eqn:E2; [reflexivity|]. exfalso.
  apply andb_true_iff in E. destruct E as (Q1 & Q2). apply negb_true_iff in Q1, Q2. rewrite (neg _ _ _ Q1 E2) in Hy. discriminate.
Qed.
Lemma run_inserts xs : forall l, sorted l -> (length l + length xs <= cap)%nat -> exists l' ys,
  run getIndex less eqI cap (match l with [] => None | _ => Some (Leaf l) end) (map Insert xs) = Some (match l' with [] => None | _ => Some (Leaf l') end, ys) /\
  sorted l' /\ (forall k, filter (same_key k) l' = filter (same_key k) l ++ filter (same_key k) xs) /\ Permutation (l ++ xs) l'.
Proof.
  induction xs as [|x xs IH]; intros l Hs Hl; cbn [map run].
  - exists l, []. split; [reflexivity|]. split; [exact Hs|]. split; [intros k; cbn [filter]; rewrite app_nil_r; reflexivity|]. rewrite app_nil_r. apply Permutation_refl.
  - cbn [length] in Hl. destruct (insert_leaf l x Hs ltac:(lia)) as (a & b & E & Hs' & Hi & Hb). unfold step. cbv zeta. rewrite Hi.
    destruct (IH (a ++ x :: b) Hs') as (l' & ys & R & S' & F & P).
    { subst l. rewrite app_length in *. cbn [length]. lia. }
    replace (match a ++ x :: b with [] => None | _ :: _ => Some (Leaf (a ++ x :: b)) end) with (Some (@Leaf Item Index (a ++ x :: b))) in R by (destruct a; reflexivity).
    rewrite R. exists l', (Done :: ys). split; [reflexivity|]. split; [exact S'|]. split.
    + intros k. rewrite F, (filter_insert k a b x Hb), <- E, <- app_assoc. f_equal. change (x :: xs) with ([x] ++ xs). rewrite filter_app. reflexivity.
    + eapply Permutation_trans; [|exact P]. subst l. change (x :: xs) with ([x] ++ xs). rewrite app_assoc. apply Permutation_app_tail.
      rewrite <- app_assoc. apply Permutation_app_head. apply Permutation_sym. apply Permutation_cons_append.
Qed.
Lemma run_app os1 : forall t os2, run getIndex less eqI cap t (os1 ++ os2) =
  match run getIndex less eqI cap t os1 with
  | None => None
  | Some (t1, ys1) => match run getIndex less eqI cap t1 os2 with Some (t2, ys2) => Some (t2, ys1 ++ ys2) | None => None end
  end.
Proof.
  induction os1 as [|o os1 IH]; intros t os2; cbn [app run].
  - destruct (run getIndex less eqI cap t os2) as [(t2, ys2)|]; reflexivity.
  - destruct (step getIndex less eqI cap t o) as [(t1, y)|]; [|reflexivity]. rewrite IH.
    destruct (run getIndex less eqI cap t1 os1) as [(t2, ys1)|]; [|reflexivity]. destruct (run getIndex less eqI cap t2 os2) as [(t3, ys2)|]; reflexivity.
Qed.
Lemma queue_small xs : (length xs <= cap)%nat -> exists t ys l,
  run getIndex less eqI cap None (map Insert xs ++ [All]) = Some (t, ys ++ [Items l]) /\
  forall k, filter (same_key k) l = filter (same_key k) xs.
Proof.
  intros H. destruct (run_inserts xs [] ltac:(constructor) ltac:(cbn [length]; lia)) as (l & ys & R & S' & F & P).
  rewrite run_app. cbn [app] in R. rewrite R. exists (match l with [] => None | _ => Some (Leaf l) end), ys, l. split; [|intros k; rewrite F; reflexivity].
  cbn [run]. unfold step, walk. cbv zeta. destruct l as [|y l]; [reflexivity|].
  assert (Hw : wf 0 (Leaf (y :: l))). { cbn [wf]. apply Permutation_length in P. cbn [app] in P. lia. }
  cbn [count]. rewrite (from_ok 0 _ Hw _ _ 0); [reflexivity| |cbn [flat]; lia]. cbn [at_]. apply (leftmost_ok 0); [exact Hw|discriminate].
Qed.
End Proofs.
