From Verif Require Import SortSpec SortModel.
From Coq Require Import ZifyBool ZifyNat.
Ltac Zify.zify_post_hook ::= Z.div_mod_to_equations.

Section S.
Context {A : Type}.
Variable less : A -> A -> bool.
Hypothesis swo : strict_weak_order less.

(* a <= b and b <= c give a <= c, with a <= b := less b a = false. *)
Lemma le_trans a b c : less b a = false -> less c b = false -> less c a = false.
Proof.
  intros H1 H2. destruct (less c a) eqn:E; [|reflexivity]. exfalso.
  destruct (less a b) eqn:E1.
  - pose proof (swo_trans _ swo _ _ _ E E1). congruence.
  - destruct (less b c) eqn:E2.
    + pose proof (swo_trans _ swo _ _ _ E2 E). congruence.
    + destruct (swo_incomp _ swo a b c E1 H1 E2 H2). congruence.
Qed.
Lemma lt_le a b : less a b = true -> less b a = false.
Proof.
  intros H. destruct (less b a) eqn:E; [|reflexivity].
  pose proof (swo_trans _ swo _ _ _ H E). rewrite (swo_irrefl _ swo) in *. congruence.
Qed.

Lemma less_at_some l i j x y : nth_error l i = Some x -> nth_error l j = Some y -> less_at less l i j = Some (less x y).
Proof. intros H1 H2. unfold less_at. rewrite H1, H2. reflexivity. Qed.

Lemma scan_lo_spec fuel l lo hi pivot P : (hi - lo < fuel)%nat -> (lo <= hi < length l)%nat ->
  nth_error l pivot = Some P ->
  exists lo', scan_lo less fuel l lo hi pivot = Some lo' /\ (lo <= lo' <= hi)%nat /\
    (forall i x, (lo <= i < lo')%nat -> nth_error l i = Some x -> less x P = true) /\
    (lo' = hi \/ exists x, nth_error l lo' = Some x /\ less x P = false).
Proof.
  revert lo. induction fuel as [|fuel IH]; intros lo Hf Hl HP; [lia|]. cbn [scan_lo].
  destruct (Nat.ltb_spec lo hi) as [H|H].
  - destruct (nth_ex l lo ltac:(lia)) as [x Hx]. rewrite (less_at_some l lo pivot x P) by assumption.
    destruct (less x P) eqn:E.
    + destruct (IH (S lo)) as (lo' & E1 & E2 & E3 & E4); [lia|lia|assumption|].
      exists lo'. split; [exact E1|]. split; [lia|]. split; [|exact E4].
      intros i y Hi Hy. destruct (Nat.eq_dec i lo) as [->|]; [congruence|]. apply (E3 i); [lia|assumption].
    + exists lo. split; [reflexivity|]. split; [lia|]. split; [lia|]. right. eauto.
  - exists lo. split; [reflexivity|]. split; [lia|]. split; [lia|]. left. lia.
Qed.

Lemma scan_hi_spec fuel l lo hi pivot P : (hi - lo < fuel)%nat -> (lo <= hi < length l)%nat ->
  nth_error l pivot = Some P ->
  exists hi', scan_hi less fuel l lo hi pivot = Some hi' /\ (lo <= hi' <= hi)%nat /\
    (forall i x, (hi' < i <= hi)%nat -> nth_error l i = Some x -> less P x = true) /\
    (lo = hi' \/ exists x, nth_error l hi' = Some x /\ less P x = false).
Proof.
  revert hi. induction fuel as [|fuel IH]; intros hi Hf Hl HP; [lia|]. cbn [scan_hi].
  destruct (Nat.ltb_spec lo hi) as [H|H].
  - destruct (nth_ex l hi ltac:(lia)) as [x Hx]. rewrite (less_at_some l pivot hi P x) by assumption.
    destruct (less P x) eqn:E.
    + destruct (IH (hi - 1)%nat) as (hi' & E1 & E2 & E3 & E4); [lia|lia|assumption|].
      exists hi'. split; [exact E1|]. split; [lia|]. split; [|exact E4].
      intros i y Hi Hy. destruct (Nat.eq_dec i hi) as [->|]; [congruence|]. apply (E3 i); [lia|assumption].
    + exists hi. split; [reflexivity|]. split; [lia|]. split; [lia|]. right. eauto.
  - exists hi. split; [reflexivity|]. split; [lia|]. split; [lia|]. left. lia.
Qed.

(* The partition loop. *)
Lemma partition_spec fuel l lo hi pivot P :
  (hi - lo < fuel)%nat -> (lo <= hi < length l)%nat -> nth_error l pivot = Some P ->
  (forall i x, (i < lo)%nat -> nth_error l i = Some x -> less P x = false) ->
  (forall i x, (hi < i)%nat -> nth_error l i = Some x -> less x P = false) ->
  ((1 <= lo)%nat /\ (exists x, nth_error l hi = Some x /\ less x P = false)) \/ (1 <= pivot /\ lo <= pivot <= hi)%nat ->
  exists l' m pivot', partition less fuel l lo hi pivot = Some (l', m, m, pivot') /\
    Permutation l l' /\ (1 <= m < length l)%nat /\ nth_error l' pivot' = Some P /\
    (forall i x, (i < m)%nat -> nth_error l' i = Some x -> less P x = false) /\
    (forall i x, (m <= i)%nat -> nth_error l' i = Some x -> less x P = false).
Proof.
  revert l lo hi pivot. induction fuel as [|fuel IH]; intros l lo hi pivot Hf Hl HP Hlow Hhigh Hinv; [lia|].
  cbn [partition].
  destruct (scan_lo_spec (S (length l)) l lo hi pivot P) as (lo' & E1 & R1 & B1 & C1); [lia|lia|assumption|].
  rewrite E1.
  destruct (scan_hi_spec (S (length l)) l lo' hi pivot P) as (hi' & E2 & R2 & B2 & C2); [lia|lia|assumption|].
  rewrite E2.
  assert (Hlow' : forall i x, (i < lo')%nat -> nth_error l i = Some x -> less P x = false).
  { intros i x Hi Hx. destruct (Nat.lt_ge_cases i lo); [apply (Hlow i); assumption|].
    apply lt_le. apply (B1 i); [lia|assumption]. }
  assert (Hhigh' : forall i x, (hi' < i)%nat -> nth_error l i = Some x -> less x P = false).
  { intros i x Hi Hx. destruct (Nat.lt_ge_cases hi i); [apply (Hhigh i); assumption|].
    apply lt_le. apply (B2 i); [lia|assumption]. }
  destruct (Nat.leb_spec hi' lo') as [Hge|Hlt].
  - assert (lo' = hi') by lia. subst hi'. exists l, lo', pivot. split; [reflexivity|]. split; [reflexivity|].
    (* the middle item is not less than P, and is not at index 0 *)
    assert (Hmid : (1 <= lo')%nat /\ forall x, nth_error l lo' = Some x -> less x P = false).
    { destruct Hinv as [(Hlo & x & Hx & Hxp)|(Hp1 & Hp2)].
      - split; [lia|]. intros y Hy. destruct C1 as [->|(z & Hz & Hzp)]; [congruence|congruence].
      - assert (Hpl : (lo' <= pivot)%nat).
        { destruct (Nat.le_gt_cases lo' pivot); [assumption|]. exfalso.
          pose proof (B1 pivot P ltac:(lia) HP) as H1. rewrite (swo_irrefl _ swo) in H1. discriminate. }
        assert (Hph : (pivot <= lo')%nat).
        { destruct (Nat.le_gt_cases pivot lo'); [assumption|]. exfalso.
          pose proof (B2 pivot P ltac:(lia) HP) as H1. rewrite (swo_irrefl _ swo) in H1. discriminate. }
        assert (lo' = pivot) by lia. subst lo'. split; [lia|]. intros y Hy.
        rewrite HP in Hy. injection Hy as <-. apply (swo_irrefl _ swo). }
    destruct Hmid as [Hm1 Hm2]. split; [lia|]. split; [exact HP|]. split; [exact Hlow'|].
    intros i x Hi Hx. destruct (Nat.eq_dec i lo') as [->|]; [apply Hm2; assumption|]. apply (Hhigh' i); [lia|assumption].
  - destruct C1 as [->|(x & Hx & Hxp)]; [lia|]. destruct C2 as [->|(y & Hy & Hyp)]; [lia|].
    rewrite (less_at_some l lo' pivot x P), (less_at_some l pivot hi' P y), Hxp, Hyp by assumption.
    unfold swap. rewrite Hx, Hy. set (l2 := upd (upd l lo' y) hi' x).
    assert (Hlen : length l2 = length l) by (unfold l2; rewrite !upd_length; reflexivity).
    assert (Hperm : Permutation l l2) by (apply swap_perm; assumption).
    pose proof (nth_lt _ _ _ Hx). pose proof (nth_lt _ _ _ Hy).
    assert (Hn : forall k, nth_error l2 k = if (hi' =? k)%nat then Some x else if (lo' =? k)%nat then Some y else nth_error l k).
    { intros k. unfold l2. rewrite !nth_upd, upd_length.
      replace (hi' <? length l)%nat with true by lia. replace (lo' <? length l)%nat with true by lia. reflexivity. }
    set (pv := if (lo' =? pivot)%nat then hi' else if (hi' =? pivot)%nat then lo' else pivot).
    destruct (IH l2 (S lo') hi' pv) as (l' & m & pivot' & E & Hp & Hm & HP' & Hl' & Hh').
    + lia.
    + lia.
    + rewrite Hn. unfold pv. destruct (Nat.eqb_spec lo' pivot) as [->|N1].
      * rewrite Nat.eqb_refl. congruence.
      * destruct (Nat.eqb_spec hi' pivot) as [->|N2].
        -- replace (pivot =? lo')%nat with false by lia. rewrite Nat.eqb_refl. congruence.
        -- replace (hi' =? pivot)%nat with false by lia. replace (lo' =? pivot)%nat with false by lia. exact HP.
    + intros i z Hi Hz. rewrite Hn in Hz. replace (hi' =? i)%nat with false in Hz by lia.
      destruct (Nat.eqb_spec lo' i) as [->|]; [congruence|]. apply (Hlow' i); [lia|assumption].
    + intros i z Hi Hz. rewrite Hn in Hz. replace (hi' =? i)%nat with false in Hz by lia.
      replace (lo' =? i)%nat with false in Hz by lia. apply (Hhigh' i); [lia|assumption].
    + left. split; [lia|]. exists x. rewrite Hn, Nat.eqb_refl. auto.
    + exists l', m, pivot'. split; [exact E|]. split; [transitivity l2; assumption|]. rewrite <- Hlen. auto.
Qed.

(* Sortedness of concatenations. *)
Lemma sorted_nil : sorted less (@nil A).
Proof. intros i j x y _ H. destruct i; discriminate. Qed.
Lemma sorted_short l : (length l <= 1)%nat -> sorted less l.
Proof.
  intros Hl i j x y Hij Hx Hy. pose proof (nth_lt _ _ _ Hx). pose proof (nth_lt _ _ _ Hy). lia.
Qed.
Lemma sorted_app a b : sorted less a -> sorted less b ->
  (forall x y, In x a -> In y b -> less y x = false) -> sorted less (a ++ b).
Proof.
  intros Ha Hb Hab i j x y Hij Hx Hy.
  destruct (Nat.lt_ge_cases i (length a)) as [Hi|Hi].
  - rewrite nth_error_app1 in Hx by exact Hi. destruct (Nat.lt_ge_cases j (length a)) as [Hj|Hj].
    + rewrite nth_error_app1 in Hy by exact Hj. exact (Ha i j x y Hij Hx Hy).
    + rewrite nth_error_app2 in Hy by exact Hj. apply Hab; eapply nth_error_In; eassumption.
  - rewrite nth_error_app2 in Hx by lia. rewrite nth_error_app2 in Hy by lia.
    apply (Hb (i - length a)%nat (j - length a)%nat x y); [lia|exact Hx|exact Hy].
Qed.
Lemma sorted_equiv P l : (forall x, In x l -> less x P = false /\ less P x = false) -> sorted less l.
Proof.
  intros H i j x y _ Hx Hy. apply nth_error_In in Hx, Hy.
  destruct (H x Hx) as [? Hx2]. destruct (H y Hy) as [Hy1 ?]. apply (le_trans x P y); assumption.
Qed.

Lemma In_firstn_nth (l : list A) n x : In x (firstn n l) -> exists i, (i < n)%nat /\ nth_error l i = Some x.
Proof.
  intros H. apply In_nth_error in H. destruct H as [i Hi]. exists i.
  pose proof (nth_lt _ _ _ Hi) as Hl. rewrite firstn_length in Hl. split; [lia|].
  rewrite <- (firstn_skipn n l). rewrite nth_error_app1 by (rewrite firstn_length; lia). exact Hi.
Qed.
Lemma In_skipn_nth (l : list A) n x : In x (skipn n l) -> exists i, (n <= i)%nat /\ nth_error l i = Some x.
Proof.
  intros H. apply In_nth_error in H. destruct H as [i Hi]. exists (n + i)%nat. split; [lia|].
  destruct (Nat.le_gt_cases (length l) n) as [Hn|Hn].
  - rewrite skipn_all2 in Hi by exact Hn. destruct i; discriminate.
  - rewrite <- (firstn_skipn n l). rewrite nth_error_app2 by (rewrite firstn_length; lia).
    rewrite firstn_length. replace (n + i - Nat.min n (length l))%nat with i by lia. exact Hi.
Qed.

Section Rec.
Variable rec : list A -> option (list A).
Variable bound : nat.
Hypothesis Hrec : forall l, (length l < bound)%nat -> exists s, rec l = Some s /\ Permutation l s /\ sorted less s.

Lemma left_part_spec l lo pivot P : (lo < bound)%nat -> (lo <= length l)%nat -> nth_error l pivot = Some P ->
  (forall x, In x (firstn lo l) -> less P x = false) ->
  exists s, left_part less rec l lo pivot = Some (s ++ skipn lo l) /\ Permutation (firstn lo l) s /\ sorted less s.
Proof.
  intros Hb Hl HP. revert Hb Hl. induction lo as [|lo IH]; intros Hb Hl Hle.
  - exists []. split; [reflexivity|]. split; [reflexivity|]. apply sorted_nil.
  - destruct lo as [|lo].
    + exists (firstn 1 l). split; [cbn [left_part]; rewrite firstn_skipn; reflexivity|]. split; [reflexivity|].
      apply sorted_short. rewrite firstn_length. lia.
    + cbn [left_part]. change (match lo with O => _ | S _ => _ end) with (left_part less rec l (S lo) pivot).
      destruct (nth_ex l (S lo) ltac:(lia)) as [x Hx]. rewrite (less_at_some l (S lo) pivot x P) by assumption.
      assert (Ef : firstn (S (S lo)) l = firstn (S lo) l ++ [x]).
      { clear -Hx. revert Hx. generalize (S lo) as k. induction l as [|y l IHl]; intros k Hx; [destruct k; discriminate|].
        destruct k as [|k]; cbn in *; [congruence|]. f_equal. apply IHl. exact Hx. }
      assert (Es : skipn (S lo) l = x :: skipn (S (S lo)) l).
      { clear -Hx. revert Hx. generalize (S lo) as k. induction l as [|y l IHl]; intros k Hx; [destruct k; discriminate|].
        destruct k as [|k]; [cbn in *; congruence|]. cbn [skipn nth_error] in *. apply IHl. exact Hx. }
      destruct (less x P) eqn:E.
      * destruct (Hrec (firstn (S (S lo)) l)) as (s & E1 & E2 & E3); [rewrite firstn_length; lia|].
        rewrite E1. exists s. auto.
      * destruct IH as (s & E1 & E2 & E3); [lia|lia| |].
        { intros y Hy. apply Hle. rewrite Ef. apply in_or_app. auto. }
        exists (s ++ [x]). split; [rewrite E1, Es, <- app_assoc; reflexivity|]. split.
        -- rewrite Ef. apply Permutation_app_tail. exact E2.
        -- apply sorted_app; [exact E3|apply sorted_short; cbn; lia|].
           intros a b Ha [<-|[]]. apply (le_trans a P x); [|exact E].
           apply Hle. rewrite Ef. apply in_or_app. left. eapply Permutation_in; [symmetry; exact E2|exact Ha].
Qed.

Lemma right_part_spec fuel l hi pivot P Q : (length l - hi < fuel)%nat -> (length l - hi < bound)%nat ->
  (hi <= length l)%nat -> nth_error l pivot = Some Q -> less P Q = false ->
  (forall x, In x (skipn hi l) -> less x P = false) ->
  exists s, right_part less rec fuel l hi pivot = Some (firstn hi l ++ s) /\ Permutation (skipn hi l) s /\ sorted less s.
Proof.
  intros Hf Hb Hl HQ HPQ. revert hi Hf Hb Hl. induction fuel as [|fuel IH]; intros hi Hf Hb Hl Hge; [lia|].
  cbn [right_part]. destruct (Nat.ltb_spec (S hi) (length l)) as [H|H].
  - destruct (nth_ex l hi ltac:(lia)) as [x Hx]. rewrite (less_at_some l pivot hi Q x) by assumption.
    assert (Es : skipn hi l = x :: skipn (S hi) l).
    { clear -Hx. revert Hx. generalize hi as k. induction l as [|y l IHl]; intros k Hx; [destruct k; discriminate|].
      destruct k as [|k]; [cbn in *; congruence|]. cbn [skipn nth_error] in *. apply IHl. exact Hx. }
    assert (Ef : firstn (S hi) l = firstn hi l ++ [x]).
    { clear -Hx. revert Hx. generalize hi as k. induction l as [|y l IHl]; intros k Hx; [destruct k; discriminate|].
      destruct k as [|k]; cbn in *; [congruence|]. f_equal. apply IHl. exact Hx. }
    destruct (less Q x) eqn:E.
    + destruct (Hrec (skipn hi l)) as (s & E1 & E2 & E3); [rewrite skipn_length; lia|].
      rewrite E1. exists s. auto.
    + destruct (IH (S hi)) as (s & E1 & E2 & E3); [lia|lia|lia| |].
      { intros y Hy. apply Hge. rewrite Es. right. exact Hy. }
      exists (x :: s). split; [rewrite E1, Ef, <- app_assoc; reflexivity|]. split.
      * rewrite Es. constructor. exact E2.
      * change (x :: s) with ([x] ++ s). apply sorted_app; [apply sorted_short; cbn; lia|exact E3|].
        intros a b [<-|[]] Hb'. 
        (* x <= Q <= P <= b *)
        apply (le_trans x Q b); [exact E|]. apply (le_trans Q P b); [exact HPQ|].
        apply Hge. rewrite Es. right. eapply Permutation_in; [symmetry; exact E2|exact Hb'].
  - exists (skipn hi l). split; [rewrite firstn_skipn; reflexivity|]. split; [reflexivity|].
    apply sorted_short. rewrite skipn_length. lia.
Qed.
End Rec.

Theorem sort_fuel_spec fuel l : (length l < fuel)%nat ->
  exists s, sort_fuel less fuel l = Some s /\ Permutation l s /\ sorted less s.
Proof.
  revert l. induction fuel as [|fuel IH]; intros l Hf; [lia|]. cbn [sort_fuel].
  destruct (Nat.leb_spec (length l) 1) as [H1|H1].
  - exists l. split; [reflexivity|]. split; [reflexivity|apply sorted_short; exact H1].
  - assert (Hpv : (1 <= length l / 2 < length l)%nat).
    { split; [apply Nat.div_le_lower_bound; lia|apply Nat.div_lt; lia]. }
    destruct (nth_ex l (length l / 2) ltac:(lia)) as [P HP].
    destruct (partition_spec (S (length l)) l 0 (length l - 1) (length l / 2) P)
      as (l1 & m & pv & E & Hp & Hm & HP' & Hlow & Hhigh); [lia|lia|exact HP|intros; lia| |right; lia|].
    { intros i x Hi Hx. pose proof (nth_lt _ _ _ Hx). lia. }
    rewrite E. rewrite Nat.leb_refl.
    assert (Hlen : length l1 = length l) by (symmetry; apply Permutation_length; exact Hp).
    assert (Hrec : forall l', (length l' < length l)%nat -> exists s, sort_fuel less fuel l' = Some s /\ Permutation l' s /\ sorted less s).
    { intros l' Hl'. apply IH. lia. }
    assert (Hlo : forall x, In x (firstn m l1) -> less P x = false).
    { intros x Hx. apply In_firstn_nth in Hx. destruct Hx as (i & Hi & Hx). apply (Hlow i x Hi Hx). }
    assert (Hhi : forall x, In x (skipn m l1) -> less x P = false).
    { intros x Hx. apply In_skipn_nth in Hx. destruct Hx as (i & Hi & Hx). apply (Hhigh i x Hi Hx). }
    destruct (left_part_spec (sort_fuel less fuel) (length l) Hrec l1 m pv P) as (s1 & E1 & P1 & S1);
      [lia|lia|exact HP'|exact Hlo|].
    rewrite E1. set (l2 := s1 ++ skipn m l1).
    assert (Hs1 : length s1 = m).
    { rewrite <- (Permutation_length P1), firstn_length. lia. }
    assert (Hlen2 : length l2 = length l) by (unfold l2; rewrite app_length, skipn_length; lia).
    assert (Es2 : skipn m l2 = skipn m l1).
    { unfold l2. rewrite skipn_app, Hs1, Nat.sub_diag. cbn. rewrite skipn_all2 by lia. reflexivity. }
    assert (Ef2 : firstn m l2 = s1).
    { unfold l2. rewrite firstn_app, Hs1, Nat.sub_diag. cbn. rewrite firstn_all2 by lia. apply app_nil_r. }
    assert (HQ : exists Q, nth_error l2 pv = Some Q /\ less P Q = false).
    { destruct (Nat.lt_ge_cases pv m) as [Hlt|Hge].
      - destruct (nth_ex s1 pv ltac:(lia)) as [Q HQ]. exists Q. unfold l2. rewrite nth_error_app1 by lia.
        split; [exact HQ|]. apply Hlo. eapply Permutation_in; [symmetry; exact P1|]. eapply nth_error_In; exact HQ.
      - exists P. unfold l2. rewrite nth_error_app2 by lia. rewrite Hs1. split; [|apply (swo_irrefl _ swo)].
        rewrite <- HP'. rewrite <- (firstn_skipn m l1) at 2. rewrite nth_error_app2 by (rewrite firstn_length; lia).
        rewrite firstn_length. f_equal. lia. }
    destruct HQ as (Q & HQ & HPQ).
    destruct (right_part_spec (sort_fuel less fuel) (length l) Hrec (S (length l2)) l2 m pv P Q)
      as (s2 & E2 & P2 & S2); [lia|lia|lia|exact HQ|exact HPQ|rewrite Es2; exact Hhi|].
    exists (s1 ++ s2). rewrite E2, Ef2. split; [reflexivity|]. rewrite Es2 in P2. split.
    + transitivity l1; [exact Hp|]. rewrite <- (firstn_skipn m l1). apply Permutation_app; assumption.
    + apply sorted_app; [exact S1|exact S2|]. intros a b Ha Hb.
      apply (le_trans a P b).
      * apply Hlo. eapply Permutation_in; [symmetry; exact P1|exact Ha].
      * apply Hhi. eapply Permutation_in; [symmetry; exact P2|exact Hb].
Qed.

Theorem sort_spec l : exists s, sort less l = Some s /\ Permutation l s /\ sorted less s.
Proof. apply sort_fuel_spec. lia. Qed.
End S.

(** ** Filter *)
Section F.
Context {A : Type}.
Variable f : A -> bool.

Lemma firstn_snoc (l : list A) k x : nth_error l k = Some x -> firstn (S k) l = firstn k l ++ [x].
Proof.
  revert k. induction l as [|y l IHl]; intros k Hx; [destruct k; discriminate|].
  destruct k as [|k]; cbn in *; [congruence|]. f_equal. apply IHl. exact Hx.
Qed.

Lemma eraseQuick_spec (l : list A) i x : nth_error l i = Some x ->
  exists l', eraseQuick l i = Some l' /\ firstn i l' = firstn i l /\ length l' = (length l - 1)%nat /\
  Permutation l (x :: l').
Proof.
  intros Hx. pose proof (nth_lt _ _ _ Hx) as Hl. unfold eraseQuick.
  destruct (nth_ex l (length l - 1) ltac:(lia)) as [z Hz]. rewrite Hz. replace (i <? length l)%nat with true by lia.
  eexists. split; [reflexivity|]. split; [|split].
  - rewrite firstn_firstn. replace (Nat.min i (length l - 1)) with i by lia.
    rewrite upd_split by lia. rewrite firstn_app, firstn_firstn. replace (Nat.min i i) with i by lia.
    rewrite firstn_length. replace (i - Nat.min i (length l))%nat with 0%nat by lia. cbn. apply app_nil_r.
  - rewrite firstn_length, upd_length. lia.
  - assert (Hw : Permutation l (upd (upd l i z) (length l - 1) x)) by (apply swap_perm; assumption).
    rewrite Hw at 1.
    assert (Hlu : length (upd l i z) = length l) by apply upd_length.
    rewrite upd_split by lia. rewrite skipn_all2 by lia.
    rewrite Permutation_app_comm. reflexivity.
Qed.

Lemma filter_loop_spec fuel (l : list A) i : (length l - i < fuel)%nat -> (i <= length l)%nat ->
  Forall (fun x => f x = true) (firstn i l) ->
  exists l', filter_loop f fuel l i = Some l' /\ Permutation l' (List.filter f l).
Proof.
  revert l i. induction fuel as [|fuel IH]; intros l i Hf Hi Hall; [lia|]. cbn [filter_loop].
  destruct (nth_error l i) as [x|] eqn:Ex.
  - pose proof (nth_lt _ _ _ Ex) as Hl. destruct (f x) eqn:Ef.
    + apply IH; [lia|lia|]. rewrite (firstn_snoc _ _ _ Ex). apply Forall_app. split; [exact Hall|]. constructor; auto.
    + destruct (eraseQuick_spec l i x Ex) as (l1 & E1 & E2 & E3 & E4). rewrite E1.
      destruct (IH l1 i) as (l' & E & Hp); [lia|lia|rewrite E2; exact Hall|].
      exists l'. split; [exact E|]. rewrite Hp.
      assert (W : forall a b : list A, Permutation a b -> Permutation (List.filter f a) (List.filter f b)).
      { clear. induction 1; cbn; repeat match goal with |- context [if ?b then _ else _] => destruct b end; auto.
        - apply perm_swap. - etransitivity; eassumption. }
      rewrite (W _ _ E4). cbn. rewrite Ef. reflexivity.
  - apply nth_error_None in Ex. exists l. split; [reflexivity|].
    rewrite firstn_all2 in Hall by exact Ex. clear -Hall.
    induction Hall as [|x l Hx Hl IH]; [reflexivity|]. cbn. rewrite Hx. constructor. exact IH.
Qed.

Theorem filter_spec (l : list A) : exists l', ply_filter f l = Some l' /\ Permutation l' (List.filter f l).
Proof. apply filter_loop_spec; [lia|lia|constructor]. Qed.

(** ** Find *)
Lemma find_loop_spec (l : list A) i :
  (find_loop f l i = -1 /\ Forall (fun x => f x = false) l) \/
  (exists k x, find_loop f l i = i + Z.of_nat k /\ nth_error l k = Some x /\ f x = true /\
     forall j y, (j < k)%nat -> nth_error l j = Some y -> f y = false).
Proof.
  revert i. induction l as [|x l IH]; intros i; cbn [find_loop]; [left; auto|].
  destruct (f x) eqn:E.
  - right. exists 0%nat, x. split; [lia|]. split; [reflexivity|]. split; [exact E|]. lia.
  - destruct (IH (i + 1)) as [[E1 E2]|(k & y & E1 & E2 & E3 & E4)]; [left; auto|].
    right. exists (S k), y. split; [lia|]. split; [exact E2|]. split; [exact E3|].
    intros [|j] z Hj Hz; [cbn in Hz; congruence|]. apply (E4 j); [lia|exact Hz].
Qed.

Theorem find_spec (l : list A) :
  (ply_find f l = -1 /\ Forall (fun x => f x = false) l) \/
  (exists k x, ply_find f l = Z.of_nat k /\ nth_error l k = Some x /\ f x = true /\
     forall j y, (j < k)%nat -> nth_error l j = Some y -> f y = false).
Proof. exact (find_loop_spec l 0). Qed.

Lemma rfind_loop_spec (l : list A) : forall n, n = zlen l - 1 ->
  (rfind_loop f (rev l) n = -1 /\ Forall (fun x => f x = false) l) \/
  (exists k x, rfind_loop f (rev l) n = Z.of_nat k /\ nth_error l k = Some x /\ f x = true /\
     forall j y, (k < j)%nat -> nth_error l j = Some y -> f y = false).
Proof.
  induction l as [|x l IH] using rev_ind; intros n Hn; [left; auto|].
  rewrite rev_app_distr. cbn [rev app rfind_loop]. unfold zlen in *. rewrite app_length in Hn. cbn in Hn.
  destruct (f x) eqn:E.
  - right. exists (length l), x. split; [lia|]. rewrite nth_error_app2, Nat.sub_diag by lia. split; [reflexivity|].
    split; [exact E|]. intros j y Hj Hy. pose proof (nth_lt _ _ _ Hy) as H. rewrite app_length in H. cbn in H. lia.
  - destruct (IH (n - 1) ltac:(lia)) as [[E1 E2]|(k & y & E1 & E2 & E3 & E4)].
    + left. split; [exact E1|]. apply Forall_app. auto.
    + right. exists k, y. pose proof (nth_lt _ _ _ E2). split; [exact E1|]. rewrite nth_error_app1 by lia. split; [exact E2|].
      split; [exact E3|]. intros j z Hj Hz. destruct (Nat.lt_ge_cases j (length l)) as [Hl|Hl].
      * rewrite nth_error_app1 in Hz by lia. apply (E4 j); assumption.
      * rewrite nth_error_app2 in Hz by lia. destruct (j - length l)%nat as [|q] eqn:Eq; [cbn in Hz; congruence|].
        cbn in Hz. destruct q; discriminate.
Qed.

Theorem rfind_spec (l : list A) : 1 <= zlen l <= 2 ^ 31 -> exists r, ply_rfind f l = Some r /\
  ((r = -1 /\ Forall (fun x => f x = false) l) \/
  (exists k x, r = Z.of_nat k /\ nth_error l k = Some x /\ f x = true /\
     forall j y, (k < j)%nat -> nth_error l j = Some y -> f y = false)).
Proof.
  intros H. unfold ply_rfind. cbv zeta. unfold u32. change (2 ^ 31) with 2147483648 in *. change (2 ^ 32) with 4294967296.
  rewrite Z.mod_small by lia. replace (zlen l - 1 <=? 2147483648 - 1) with true by lia.
  eexists. split; [reflexivity|]. apply rfind_loop_spec. reflexivity.
Qed.
End F.
