(* Every step of the trace log keeps the invariant. *)
From Coq Require Import Lia ZifyBool ZifyNat Permutation.
From Verif Require Import TraceSpec TraceProofs.
Open Scope nat_scope.

Section Steps.
Context (E M : nat) (E1 : 1 <= E) (M1 : 1 <= M).
Notation Inv := (Inv E M).
Notation Shape := (Shape E M).

(* ---- pages ---- *)
Lemma shape_ext pg pg' made head tail num w len :
  (forall j, j < made -> p_index (pg' j) = p_index (pg j) /\ p_next (pg' j) = p_next (pg j) /\ p_live (pg' j) = p_live (pg j)) ->
  Shape pg made head tail num w len -> Shape pg' made head tail num w len.
Proof.
  intros P [A B C D F G H I J K]. assert (1 <= made) by lia. split; try assumption.
  - intros j Hj. rewrite (proj1 (P j ltac:(lia))). exact (F j Hj).
  - rewrite (proj1 (P (made - 1) ltac:(lia))). exact G.
  - rewrite (proj1 (P (made - 1) ltac:(lia))). exact H.
  - rewrite (proj1 (P (made - 1) ltac:(lia))). exact I.
  - intros j Hj. rewrite (proj1 (proj2 (P j Hj))). exact (J j Hj).
  - intros j Hj. rewrite (proj2 (proj2 (P j Hj))). exact (K j Hj).
Qed.

Lemma bump_index pg p j : p_index (set pg p (bump (pg p)) j) = if j =? p then S (p_index (pg j)) else p_index (pg j).
Proof. unfold set. destruct (Nat.eqb_spec j p) as [->|]; reflexivity. Qed.
Lemma bump_next pg p j : p_next (set pg p (bump (pg p)) j) = p_next (pg j).
Proof. unfold set. destruct (Nat.eqb_spec j p) as [->|]; reflexivity. Qed.
Lemma bump_live pg p j : p_live (set pg p (bump (pg p)) j) = p_live (pg j).
Proof. unfold set. destruct (Nat.eqb_spec j p) as [->|]; reflexivity. Qed.
Lemma bump_events pg p j : p_events (set pg p (bump (pg p)) j) = p_events (pg j).
Proof. unfold set. destruct (Nat.eqb_spec j p) as [->|]; reflexivity. Qed.

Lemma shape_bump pg made head tail num w len p :
  Shape pg made head tail num w len -> p <= tail ->
  Shape (set pg p (bump (pg p))) made head tail num w (if p_index (pg p) <? E then S len else len).
Proof.
  intros [A B C D F G H I J K] Hp. split; try assumption.
  - intros j Hj. rewrite bump_index. pose proof (F j Hj). destruct (j =? p); lia.
  - rewrite bump_index. destruct (Nat.ltb_spec (p_index (pg p)) E) as [Lt|Ge].
    + assert (p = made - 1) as ->.
      { destruct (Nat.lt_ge_cases (S p) made) as [L|L]; [specialize (F p L); lia|]. destruct (w =? 2); lia. }
      rewrite Nat.eqb_refl. lia.
    + destruct (Nat.eqb_spec (made - 1) p) as [<-|]; lia.
  - rewrite bump_index. intros L. specialize (H L). destruct (made - 1 =? p); lia.
  - rewrite bump_index. intros L. specialize (I L). destruct (Nat.eqb_spec (made - 1) p) as [<-|]; [|exact I].
    subst w. cbn in A. lia.
  - intros j Hj. rewrite bump_next. exact (J j Hj).
  - intros j Hj. rewrite bump_live. exact (K j Hj).
Qed.

Lemma shape_room pg made head tail num w len p :
  Shape pg made head tail num w len -> p <= tail -> p_index (pg p) < E ->
  p = tail /\ made = S tail /\ len = p * E + p_index (pg p).
Proof.
  intros [A B C D F G H I J K] Hp Lt.
  assert (~ S p < made) as N by (intros L; specialize (F p L); lia).
  destruct (w =? 2); [lia|]. assert (p = tail) as -> by lia. assert (made = S tail) as Mk by lia.
  replace (made - 1) with tail in G by lia. lia.
Qed.

Lemma shape_len pg made head tail num w len : Shape pg made head tail num w len -> len <= made * E /\ len <= S tail * E + 1.
Proof.
  intros [A B C D F G H I J K]. split; [nia|]. destruct (Nat.eqb_spec w 2) as [->|].
  - specialize (I eq_refl). rewrite I in G. nia.
  - nia.
Qed.

Lemma shape_tail_live pg made head tail num w len : w <= 2 -> Shape pg made head tail num w len -> p_live (pg tail) = true.
Proof.
  intros W [A B C D F G H I J K]. rewrite K.
  - apply Nat.leb_le. destruct (Nat.eqb_spec w 2), (Nat.eqb_spec w 0); lia.
  - destruct (w =? 2); lia.
Qed.

Lemma window_le l f : window l f <= 2.
Proof. destruct l as [t|]; cbn; [destruct (f t); cbn; lia|lia]. Qed.

Lemma where_mono pg pg' tail tail' f t x : (forall u, Where E pg tail (f u)) -> Where E pg' tail' x ->
  (forall u, u <> t -> holding (f u) = true -> tail' = tail /\ (forall j, p_index (pg j) <= p_index (pg' j))) -> tail <= tail' ->
  forall u, Where E pg' tail' (set f t x u).
Proof.
  intros W X H T u. unfold set. destruct (Nat.eqb_spec u t) as [->|Hu]; [exact X|].
  specialize (W u). specialize (H u Hu). destruct (f u); cbn in *; try exact W; try lia.
  all: destruct (H eq_refl) as [-> H2]; try exact W. destruct W as [W1 W2]. split; [exact W1|]. specialize (H2 p). lia.
Qed.

Lemma over_keep f t x : over (f t) = false -> (exists u, over (f u) = true) -> exists u, over (set f t x u) = true.
Proof. intros H [u Hu]. exists u. rewrite set_ne; [exact Hu|]. intros ->. congruence. Qed.

Lemma lock_keep (l : option nat) f t x : (forall u, l = Some u <-> holding (f u) = true) -> holding x = holding (f t) ->
  forall u, l = Some u <-> holding (set f t x u) = true.
Proof. intros H X u. unfold set. destruct (Nat.eqb_spec u t) as [->|]; [rewrite X|]; apply H. Qed.
Lemma others_free (l : option nat) f t : (forall u, l = Some u <-> holding (f u) = true) -> holding (f t) = true ->
  l = Some t /\ forall u, u <> t -> holding (f u) = true -> False.
Proof.
  intros H Ht. apply H in Ht. split; [exact Ht|]. intros u Hu Hh. apply H in Hh. congruence.
Qed.

(* ---- steps ---- *)
Lemma step_begin s cl t g a b : Inv s cl -> freed s = false -> pcs s t = Idle -> Inv (step E M s t (Begin g a b)) cl.
Proof.
  intros [L B Sh W Sl O] Fr Pt. unfold step. rewrite Fr, Pt. split; cbn.
  - apply lock_keep; [exact L|]. rewrite Pt. reflexivity.
  - apply book_begin; assumption.
  - rewrite window_same; [exact Sh|apply L|rewrite Pt; reflexivity].
  - apply (where_mono (pages s) _ (tail s)); auto. exact I.
  - apply slots_begin; assumption.
  - intros H. apply over_keep; [rewrite Pt; reflexivity|exact (O H)].
Qed.

Lemma step_load s cl t c : Inv s cl -> freed s = false -> pcs s t = LoadTail c -> Inv (step E M s t Go) cl.
Proof.
  intros [L B Sh W Sl O] Fr Pt. unfold step. rewrite Fr, Pt. split; cbn.
  - apply lock_keep; [exact L|]. rewrite Pt. reflexivity.
  - apply book_go; [exact B|rewrite Pt; reflexivity..|]. intros d k [= <- <-]. right.
    destruct (shape_len _ _ _ _ _ _ _ Sh). cbn in *. lia.
  - rewrite window_same; [exact Sh|apply L|rewrite Pt; reflexivity].
  - apply (where_mono (pages s) _ (tail s)); auto. cbn. lia.
  - apply (slots_go E (pages s)); [exact Sl|rewrite Pt; reflexivity|auto].
  - intros H. apply over_keep; [rewrite Pt; reflexivity|exact (O H)].
Qed.

Lemma step_take s cl t c p : Inv s cl -> freed s = false -> pcs s t = Take c p ->
  (freed (step E M s t Go) = true /\ p < head s) \/ exists cl', Inv (step E M s t Go) cl'.
Proof.
  intros [L B Sh W Sl O] Fr Pt. unfold step. rewrite Fr, Pt.
  pose proof (W t) as Wt. rewrite Pt in Wt. cbn in Wt.
  assert (Hm : p < made s) by (pose proof (sh_made _ _ _ _ _ _ _ _ _ Sh); lia).
  destruct (p_live (pages s p)) eqn:Lv.
  2: { left. split; [reflexivity|]. rewrite (sh_live _ _ _ _ _ _ _ _ _ Sh p Hm) in Lv. apply Nat.leb_gt in Lv. exact Lv. }
  right. destruct (Nat.ltb_spec (p_index (pages s p)) E) as [Lt|Ge].
  - destruct (shape_room _ _ _ _ _ _ _ p Sh Wt Lt) as (-> & Mk & Len).
    exists (cl ++ [c]). split; cbn.
    + apply lock_keep; [exact L|]. rewrite Pt. reflexivity.
    + apply book_claim; [exact B|rewrite Pt; reflexivity|reflexivity|cbn; rewrite <- Len; reflexivity..].
    + rewrite window_same; [|apply L|rewrite Pt; reflexivity]. rewrite app_length, Nat.add_1_r.
      pose proof (shape_bump _ _ _ _ _ _ _ (tail s) Sh Wt) as Sh'. destruct (Nat.ltb_spec (p_index (pages s (tail s))) E); [exact Sh'|lia].
    + apply (where_mono (pages s) _ (tail s)); auto. intros u _ _. split; [reflexivity|]. intros j. rewrite bump_index. destruct (j =? tail s); lia.
    + apply (slots_claim E (pages s) _ (made s)); [exact Sl|rewrite Pt; reflexivity|cbn; rewrite <- Len; reflexivity| |].
      * apply (shape_len _ _ _ _ _ _ _ Sh).
      * intros j Hj. rewrite bump_live, bump_events. auto.
    + rewrite bump_index, Mk. replace (made s - 1) with (tail s) by lia. rewrite Nat.sub_0_r || idtac.
      replace (S (tail s) - 1) with (tail s) by lia. rewrite Nat.eqb_refl. lia.
  - exists cl. split; cbn.
    + apply lock_keep; [exact L|]. rewrite Pt. reflexivity.
    + apply book_go; [exact B|rewrite Pt; reflexivity..|]. discriminate.
    + rewrite window_same; [|apply L|rewrite Pt; reflexivity].
      pose proof (shape_bump _ _ _ _ _ _ _ p Sh Wt) as Sh'. destruct (Nat.ltb_spec (p_index (pages s p)) E); [lia|exact Sh'].
    + apply (where_mono (pages s) _ (tail s)); auto; [exact I|]. intros u _ _. split; [reflexivity|]. intros j. rewrite bump_index. destruct (j =? p); lia.
    + apply (slots_go E (pages s)); [exact Sl|rewrite Pt; reflexivity|].
      intros j Hj. rewrite bump_live, bump_events. auto.
    + intros _. exists t. rewrite set_eq. reflexivity.
Qed.

Lemma step_lock s cl t c : Inv s cl -> freed s = false -> pcs s t = Lock c -> Inv (step E M s t Go) cl.
Proof.
  intros Iv Fr Pt. pose proof Iv as [L B Sh W Sl O]. unfold step. rewrite Fr, Pt. destruct (lock s) as [u|] eqn:Lk; [exact Iv|].
  split; cbn.
  - intros u. split.
    + intros [= <-]. rewrite set_eq. reflexivity.
    + unfold set. destruct (Nat.eqb_spec u t) as [->|Hu]; [reflexivity|]. intros H. apply L in H. congruence.
  - apply book_go; [exact B|rewrite Pt; reflexivity..|]. discriminate.
  - rewrite set_eq. exact Sh.
  - apply (where_mono (pages s) _ (tail s)); auto. exact I.
  - apply (slots_go E (pages s)); [exact Sl|rewrite Pt; reflexivity|auto].
  - intros _. exists t. rewrite set_eq. reflexivity.
Qed.

Lemma step_check s cl t c : Inv s cl -> freed s = false -> pcs s t = Check c -> Inv (step E M s t Go) cl.
Proof.
  intros [L B Sh W Sl O] Fr Pt. unfold step. rewrite Fr, Pt.
  rewrite (shape_tail_live _ _ _ _ _ _ _ (window_le _ _) Sh).
  destruct (others_free _ _ t L) as [Lk Fo]; [rewrite Pt; reflexivity|].
  assert (S0 : Shape (pages s) (made s) (head s) (tail s) (num s) 0 (length cl)).
  { rewrite Lk in Sh. cbn in Sh. rewrite Pt in Sh. exact Sh. }
  assert (Mk : made s - 1 = tail s) by (rewrite (sh_made _ _ _ _ _ _ _ _ _ S0); cbn; lia).
  destruct (Nat.ltb_spec (p_index (pages s (tail s))) E) as [Lt|Ge]; split; cbn.
  - apply lock_keep; [exact L|]. rewrite Pt. reflexivity.
  - apply book_go; [exact B|rewrite Pt; reflexivity..|]. discriminate.
  - rewrite Lk. cbn. rewrite set_eq. exact S0.
  - apply (where_mono (pages s) _ (tail s)); auto. reflexivity.
  - apply (slots_go E (pages s)); [exact Sl|rewrite Pt; reflexivity|auto].
  - rewrite Mk. lia.
  - apply lock_keep; [exact L|]. rewrite Pt. reflexivity.
  - apply book_go; [exact B|rewrite Pt; reflexivity..|]. discriminate.
  - rewrite Lk. cbn. rewrite set_eq. exact S0.
  - apply (where_mono (pages s) _ (tail s)); auto. split; [reflexivity|exact Ge].
  - apply (slots_go E (pages s)); [exact Sl|rewrite Pt; reflexivity|auto].
  - intros _. exists t. rewrite set_eq. reflexivity.
Qed.

Lemma step_retake s cl t c p : Inv s cl -> freed s = false -> pcs s t = Retake c p -> exists cl', Inv (step E M s t Go) cl'.
Proof.
  intros [L B Sh W Sl O] Fr Pt. unfold step. rewrite Fr, Pt.
  pose proof (W t) as Wt. rewrite Pt in Wt. cbn in Wt. subst p.
  rewrite (shape_tail_live _ _ _ _ _ _ _ (window_le _ _) Sh).
  destruct (others_free _ _ t L) as [Lk Fo]; [rewrite Pt; reflexivity|].
  assert (S0 : Shape (pages s) (made s) (head s) (tail s) (num s) 0 (length cl)).
  { rewrite Lk in Sh. cbn in Sh. rewrite Pt in Sh. exact Sh. }
  pose proof (shape_bump _ _ _ _ _ _ _ (tail s) S0 (le_n _)) as Sh'.
  assert (Mk : made s - 1 = tail s) by (rewrite (sh_made _ _ _ _ _ _ _ _ _ S0); cbn; lia).
  destruct (Nat.ltb_spec (p_index (pages s (tail s))) E) as [Lt|Ge].
  - destruct (shape_room _ _ _ _ _ _ _ (tail s) S0 (le_n _) Lt) as (_ & _ & Len).
    exists (cl ++ [c]). split; cbn.
    + apply lock_keep; [exact L|]. rewrite Pt. reflexivity.
    + apply book_claim; [exact B|rewrite Pt; reflexivity|reflexivity|cbn; rewrite <- Len; reflexivity..].
    + rewrite Lk. cbn. rewrite set_eq, app_length, Nat.add_1_r. exact Sh'.
    + apply (where_mono (pages s) _ (tail s)); auto. intros u Hu Hh. destruct (Fo u Hu Hh).
    + apply (slots_claim E (pages s) _ (made s)); [exact Sl|rewrite Pt; reflexivity|cbn; rewrite <- Len; reflexivity| |].
      * apply (shape_len _ _ _ _ _ _ _ Sh).
      * intros j Hj. rewrite bump_live, bump_events. auto.
    + rewrite bump_index, Mk, Nat.eqb_refl. lia.
  - exists cl. split; cbn.
    + apply lock_keep; [exact L|]. rewrite Pt. reflexivity.
    + apply book_go; [exact B|rewrite Pt; reflexivity..|]. discriminate.
    + rewrite Lk. cbn. rewrite set_eq. exact Sh'.
    + apply (where_mono (pages s) _ (tail s)); auto.
      * split; [reflexivity|]. rewrite bump_index, Nat.eqb_refl. lia.
      * intros u Hu Hh. destruct (Fo u Hu Hh).
    + apply (slots_go E (pages s)); [exact Sl|rewrite Pt; reflexivity|].
      intros j Hj. rewrite bump_live, bump_events. auto.
    + intros _. exists t. rewrite set_eq. reflexivity.
Qed.

Lemma step_grow s cl t c p : Inv s cl -> freed s = false -> pcs s t = Grow c p -> Inv (step E M s t Go) (cl ++ [c]).
Proof.
  intros [L B Sh W Sl O] Fr Pt. unfold step. rewrite Fr, Pt.
  pose proof (W t) as Wt. rewrite Pt in Wt. cbn in Wt. destruct Wt as [-> Ge].
  pose proof (shape_tail_live _ _ _ _ _ _ _ (window_le _ _) Sh) as Lv. rewrite Lv.
  destruct (others_free _ _ t L) as [Lk Fo]; [rewrite Pt; reflexivity|].
  assert (S0 : Shape (pages s) (made s) (head s) (tail s) (num s) 0 (length cl)).
  { rewrite Lk in Sh. cbn in Sh. rewrite Pt in Sh. exact Sh. }
  destruct S0 as [SA SB SC SD SF SG SH SI SJ SK]. cbn in SA, SB.
  assert (Mk : made s = S (tail s)) by lia.
  replace (made s - 1) with (tail s) in SG by lia.
  set (pg := set (set (pages s) (made s) (new_page 1)) (tail s) (mkpage (Some (made s)) (p_index (pages s (tail s))) (p_events (pages s (tail s))) true)).
  assert (P1 : pg (made s) = new_page 1). { unfold pg. rewrite set_ne by lia. apply set_eq. }
  assert (P2 : forall j, j < made s -> p_index (pg j) = p_index (pages s j) /\ p_live (pg j) = p_live (pages s j) /\ p_events (pg j) = p_events (pages s j)).
  { intros j Hj. unfold pg, set. destruct (Nat.eqb_spec j (tail s)) as [->|]; cbn; [rewrite Lv; auto|].
    destruct (Nat.eqb_spec j (made s)); [lia|auto]. }
  split; cbn; fold pg.
  - apply lock_keep; [exact L|]. rewrite Pt. reflexivity.
  - apply book_claim; [exact B|rewrite Pt; reflexivity|reflexivity|cbn; do 2 f_equal; lia..].
  - rewrite Lk. cbn. rewrite set_eq, app_length. cbn. split; cbn; try lia.
    + intros j Hj. destruct (P2 j ltac:(lia)) as [-> _]. destruct (Nat.eq_dec j (tail s)) as [->|]; [exact Ge|]. apply SF. lia.
    + rewrite Nat.sub_0_r, P1. cbn. rewrite Mk. lia.
    + intros _. rewrite Nat.sub_0_r, P1. cbn. lia.
    + intros _. rewrite Nat.sub_0_r, P1. reflexivity.
    + intros j Hj. destruct (Nat.eq_dec j (made s)) as [->|Hne].
      * rewrite P1, Nat.eqb_refl. reflexivity.
      * destruct (Nat.eqb_spec j (made s)); [lia|]. unfold pg, set. destruct (Nat.eqb_spec j (tail s)) as [->|Ht]; [cbn; f_equal; lia|].
        destruct (Nat.eqb_spec j (made s)); [lia|]. rewrite SJ by lia. destruct (Nat.eqb_spec (S j) (made s)); [lia|reflexivity].
    + intros j Hj. destruct (Nat.eq_dec j (made s)) as [->|Hne].
      * rewrite P1. cbn. symmetry. apply Nat.leb_le. lia.
      * destruct (P2 j ltac:(lia)) as (_ & -> & _). apply SK. lia.
  - apply (where_mono (pages s) _ (tail s)); auto. intros u Hu Hh. destruct (Fo u Hu Hh).
  - apply (slots_claim E (pages s) _ (made s)); [exact Sl|rewrite Pt; reflexivity|cbn; do 2 f_equal; lia|nia|].
    intros j Hj. destruct (P2 j Hj) as (_ & -> & ->). auto.
  - rewrite Nat.sub_0_r, P1. cbn. lia.
Qed.

Lemma step_publish s cl t c p : Inv s cl -> freed s = false -> pcs s t = Publish c p -> Inv (step E M s t Go) cl.
Proof.
  intros [L B Sh W Sl O] Fr Pt. unfold step. rewrite Fr, Pt.
  pose proof (W t) as Wt. rewrite Pt in Wt. cbn in Wt. subst p.
  destruct (others_free _ _ t L) as [Lk Fo]; [rewrite Pt; reflexivity|].
  rewrite Lk in Sh. cbn in Sh. rewrite Pt in Sh.
  split; cbn.
  - apply lock_keep; [exact L|]. rewrite Pt. reflexivity.
  - apply book_go; [exact B|rewrite Pt; reflexivity..|]. intros d k [= <- <-]. left. rewrite Pt. reflexivity.
  - rewrite Lk. cbn. rewrite set_eq. destruct Sh as [SA SB SC SD SF SG SH SI SJ SK]. cbn in *. split; cbn; try assumption; lia.
  - apply (where_mono (pages s) _ (tail s)); auto; [reflexivity|]. intros u Hu Hh. destruct (Fo u Hu Hh).
  - apply (slots_go E (pages s)); [exact Sl|rewrite Pt; reflexivity|auto].
  - intros H. apply over_keep; [rewrite Pt; reflexivity|exact (O H)].
Qed.

Lemma step_trim s cl t c p : Inv s cl -> freed s = false -> pcs s t = Trim c p -> Inv (step E M s t Go) cl.
Proof.
  intros [L B Sh W Sl O] Fr Pt. unfold step. rewrite Fr, Pt.
  pose proof (W t) as Wt. rewrite Pt in Wt. cbn in Wt. subst p.
  destruct (others_free _ _ t L) as [Lk Fo]; [rewrite Pt; reflexivity|].
  rewrite Lk in Sh. cbn in Sh. rewrite Pt in Sh.
  pose proof Sh as [SA SB SC SD SF SG SH SI SJ SK]. cbn in SA, SB.
  destruct (Nat.leb_spec M (num s)) as [Ge|Lt].
  - rewrite (SK (head s)) by lia. rewrite Nat.leb_refl. rewrite (SJ (head s)) by lia.
    destruct (Nat.eqb_spec (S (head s)) (made s)); [lia|].
    set (pg := set (pages s) (head s) (mkpage (Some (S (head s))) (p_index (pages s (head s))) (p_events (pages s (head s))) false)).
    assert (P : forall j, p_index (pg j) = p_index (pages s j) /\ p_events (pg j) = p_events (pages s j)).
    { intros j. unfold pg, set. destruct (Nat.eqb_spec j (head s)) as [->|]; auto. }
    split; cbn; fold pg.
    + apply lock_keep; [exact L|]. rewrite Pt. reflexivity.
    + apply book_go; [exact B|rewrite Pt; reflexivity| |].
      * rewrite Pt. cbn. do 2 f_equal. lia.
      * intros d k [= <- <-]. left. rewrite Pt. cbn. do 2 f_equal. lia.
    + rewrite Lk. cbn. rewrite set_eq. cbn. split; try (cbn; lia).
      * intros j Hj. rewrite (proj1 (P j)). exact (SF j Hj).
      * rewrite (proj1 (P _)). exact SG.
      * rewrite (proj1 (P _)). exact SH.
      * intros j Hj. destruct (Nat.eq_dec j (head s)) as [->|Hne].
        -- unfold pg. rewrite set_eq. cbn [p_next]. change (Some (S (head s)) = if S (head s) =? made s then None else Some (S (head s))). destruct (Nat.eqb_spec (S (head s)) (made s)); [lia|reflexivity].
        -- unfold pg. rewrite set_ne by exact Hne. exact (SJ j Hj).
      * intros j Hj. destruct (Nat.eq_dec j (head s)) as [->|Hne].
        -- unfold pg. rewrite set_eq. cbn [p_live]. symmetry. apply Nat.leb_gt. lia.
        -- unfold pg. rewrite set_ne by exact Hne. rewrite SK by exact Hj.
           destruct (Nat.leb_spec (head s) j), (Nat.leb_spec (S (head s)) j); try reflexivity; lia.
    + apply (where_mono (pages s) _ (tail s)); auto. intros u Hu Hh. destruct (Fo u Hu Hh).
    + apply (slots_go E (pages s)); [exact Sl|rewrite Pt; cbn; do 2 f_equal; lia|].
      intros j Hj Hl. split; [|apply P]. unfold pg, set in Hl. destruct (j =? head s); [discriminate|exact Hl].
    + rewrite (proj1 (P _)). intros H. apply over_keep; [rewrite Pt; reflexivity|exact (O H)].
  - split; cbn.
    + apply lock_keep; [exact L|]. rewrite Pt. reflexivity.
    + apply book_go; [exact B|rewrite Pt; reflexivity| |].
      * rewrite Pt. cbn. do 2 f_equal. lia.
      * intros d k [= <- <-]. left. rewrite Pt. cbn. do 2 f_equal. lia.
    + rewrite Lk. cbn. rewrite set_eq. cbn. split; cbn; try assumption; lia.
    + apply (where_mono (pages s) _ (tail s)); auto.
    + apply (slots_go E (pages s)); [exact Sl|rewrite Pt; cbn; do 2 f_equal; lia|auto].
    + intros H. apply over_keep; [rewrite Pt; reflexivity|exact (O H)].
Qed.

Lemma step_unlock s cl t c p i : Inv s cl -> freed s = false -> pcs s t = Unlock c p i -> Inv (step E M s t Go) cl.
Proof.
  intros [L B Sh W Sl O] Fr Pt. unfold step. rewrite Fr, Pt.
  pose proof (W t) as Wt. rewrite Pt in Wt. cbn in Wt.
  destruct (others_free _ _ t L) as [Lk Fo]; [rewrite Pt; reflexivity|].
  rewrite Lk in Sh. cbn in Sh. rewrite Pt in Sh.
  split; cbn.
  - intros u. split; [discriminate|]. unfold set. destruct (Nat.eqb_spec u t) as [->|Hu]; [discriminate|].
    intros H. destruct (Fo u Hu H).
  - apply book_go; [exact B|rewrite Pt; reflexivity..|]. intros d k [= <- <-]. left. rewrite Pt. reflexivity.
  - exact Sh.
  - apply (where_mono (pages s) _ (tail s)); auto.
  - apply (slots_go E (pages s)); [exact Sl|rewrite Pt; reflexivity|auto].
  - intros H. apply over_keep; [rewrite Pt; reflexivity|exact (O H)].
Qed.

Lemma step_write s cl t c p i : Inv s cl -> freed s = false -> pcs s t = Write c p i ->
  (freed (step E M s t Go) = true /\ p < head s) \/ Inv (step E M s t Go) cl.
Proof.
  intros [L B Sh W Sl O] Fr Pt. unfold step. rewrite Fr, Pt.
  pose proof (W t) as Wt. rewrite Pt in Wt. cbn in Wt.
  assert (Hm : p < made s).
  { assert (nth_error cl (p * E + i) = Some c) as H by (apply (b_claim _ _ _ _ _ B t); rewrite Pt; reflexivity).
    apply nth_some_lt in H. pose proof (proj1 (shape_len _ _ _ _ _ _ _ Sh)). nia. }
  destruct (p_live (pages s p)) eqn:Lv.
  2: { left. split; [reflexivity|]. rewrite (sh_live _ _ _ _ _ _ _ _ _ Sh p Hm) in Lv. apply Nat.leb_gt in Lv. exact Lv. }
  right. split; cbn.
  - apply lock_keep; [exact L|]. rewrite Pt. reflexivity.
  - apply (book_return E _ _ _ _ _ _ (p * E + i)); [exact B|rewrite Pt; reflexivity..].
  - rewrite window_same; [|apply L|rewrite Pt; reflexivity]. apply (shape_ext (pages s)); [|exact Sh].
    intros j Hj. unfold set. destruct (Nat.eqb_spec j p) as [->|]; auto.
  - apply (where_mono (pages s) _ (tail s)); auto; [exact I|]. intros u _ _. split; [reflexivity|].
    intros j. unfold set. destruct (Nat.eqb_spec j p) as [->|]; auto.
  - rewrite <- Lv. apply (slots_return E _ _ _ (calls s)); assumption.
  - intros H. apply over_keep; [rewrite Pt; reflexivity|]. apply O.
    unfold set in H. destruct (Nat.eqb_spec (made s - 1) p) as [<-|]; exact H.
Qed.

(** Only the two accesses outside the lock can meet a deleted page. *)
Lemma step_inv s cl t m : Inv s cl -> freed s = false ->
  (freed (step E M s t m) = true /\
    exists c p, (pcs s t = Take c p \/ exists i, pcs s t = Write c p i) /\ p < head s) \/
  freed (step E M s t m) = false /\ exists cl', Inv (step E M s t m) cl'.
Proof.
  intros Iv Fr.
  assert (Same : step E M s t m = s -> freed (step E M s t m) = false /\ exists cl', Inv (step E M s t m) cl').
  { intros ->. split; [exact Fr|exists cl; exact Iv]. }
  assert (Fin : forall P : Prop, (exists cl', Inv (step E M s t m) cl') -> freed (step E M s t m) = false ->
    P \/ freed (step E M s t m) = false /\ exists cl', Inv (step E M s t m) cl') by tauto.
  destruct m as [g a b|]; destruct (pcs s t) eqn:Pt;
    try (right; apply Same; unfold step; rewrite Fr, Pt; reflexivity).
  - apply Fin; [exists cl; apply step_begin; assumption|]. unfold step. rewrite Fr, Pt. reflexivity.
  - apply Fin; [exists cl; eapply step_load; eassumption|]. unfold step. rewrite Fr, Pt. cbn; first [exact Fr|reflexivity].
  - destruct (step_take s cl t _ _ Iv Fr Pt) as [[H1 H2]|H].
    + left. split; [exact H1|]. exists c, p. split; [left; reflexivity|exact H2].
    + destruct (freed (step E M s t Go)) eqn:Fs.
      * left. split; [reflexivity|]. exists c, p. split; [left; reflexivity|].
        unfold step in Fs. rewrite Fr, Pt in Fs. destruct (p_live (pages s p)) eqn:Lv; [cbn in Fs; congruence|].
        rewrite (sh_live _ _ _ _ _ _ _ _ _ (i_shape _ _ _ _ Iv) p) in Lv; [apply Nat.leb_gt in Lv; exact Lv|].
        pose proof (i_where _ _ _ _ Iv t) as Wt. rewrite Pt in Wt. cbn in Wt.
        pose proof (sh_made _ _ _ _ _ _ _ _ _ (i_shape _ _ _ _ Iv)). lia.
      * right. split; [reflexivity|exact H].
  - apply Fin; [exists cl; eapply step_lock; eassumption|]. unfold step. rewrite Fr, Pt. destruct (lock s); cbn; first [exact Fr|reflexivity].
  - apply Fin; [exists cl; eapply step_check; eassumption|]. unfold step. rewrite Fr, Pt.
    rewrite (shape_tail_live _ _ _ _ _ _ _ (window_le _ _) (i_shape _ _ _ _ Iv)). cbn; first [exact Fr|reflexivity].
  - apply Fin; [eapply step_retake; eassumption|]. unfold step. rewrite Fr, Pt.
    pose proof (i_where _ _ _ _ Iv t) as Wt. rewrite Pt in Wt. cbn in Wt. subst p.
    rewrite (shape_tail_live _ _ _ _ _ _ _ (window_le _ _) (i_shape _ _ _ _ Iv)). cbn; first [exact Fr|reflexivity].
  - apply Fin; [exists (cl ++ [c]); eapply step_grow; eassumption|]. unfold step. rewrite Fr, Pt.
    pose proof (i_where _ _ _ _ Iv t) as Wt. rewrite Pt in Wt. cbn in Wt. destruct Wt as [-> _].
    rewrite (shape_tail_live _ _ _ _ _ _ _ (window_le _ _) (i_shape _ _ _ _ Iv)). cbn; first [exact Fr|reflexivity].
  - apply Fin; [exists cl; eapply step_publish; eassumption|]. unfold step. rewrite Fr, Pt. cbn; first [exact Fr|reflexivity].
  - apply Fin; [exists cl; eapply step_trim; eassumption|].
    pose proof Iv as [L B Sh W Sl O]. destruct (others_free _ _ t L) as [Lk _]; [rewrite Pt; reflexivity|].
    rewrite Lk in Sh. cbn in Sh. rewrite Pt in Sh. destruct Sh as [SA SB SC SD SF SG SH SI SJ SK]. cbn in SA, SB.
    unfold step. rewrite Fr, Pt. rewrite (SK (head s)) by lia. rewrite Nat.leb_refl. rewrite (SJ (head s)) by lia.
    destruct (Nat.eqb_spec (S (head s)) (made s)); [lia|]. destruct (M <=? num s); cbn; first [exact Fr|reflexivity].
  - apply Fin; [exists cl; eapply step_unlock; eassumption|]. unfold step. rewrite Fr, Pt. cbn; first [exact Fr|reflexivity].
  - destruct (step_write s cl t _ _ _ Iv Fr Pt) as [[H1 H2]|H].
    + left. split; [exact H1|]. exists c, p. split; [right; exists i; reflexivity|exact H2].
    + destruct (freed (step E M s t Go)) eqn:Fs; [|right; split; [reflexivity|exists cl; exact H]].
      left. split; [reflexivity|]. exists c, p. split; [right; exists i; reflexivity|].
      unfold step in Fs. rewrite Fr, Pt in Fs. destruct (p_live (pages s p)) eqn:Lv; [cbn in Fs; congruence|].
      rewrite (sh_live _ _ _ _ _ _ _ _ _ (i_shape _ _ _ _ Iv) p) in Lv; [apply Nat.leb_gt in Lv; exact Lv|].
      pose proof Iv as [L B Sh W Sl O]. pose proof (W t) as Wt. rewrite Pt in Wt. cbn in Wt.
      assert (nth_error cl (p * E + i) = Some c) as Hn by (apply (b_claim _ _ _ _ _ B t); rewrite Pt; reflexivity).
      apply nth_some_lt in Hn. pose proof (proj1 (shape_len _ _ _ _ _ _ _ Sh)). nia.
Qed.

End Steps.
