(* Proofs about CookModel: reference counts, deletion. *)
From Coq Require Import Lia ZifyBool ZifyNat Permutation.
From Verif Require Export CookSpec.
Open Scope nat_scope.

(* ---- sums over the heap ---- *)
Section Total.
Context (f : option job -> nat).
Fixpoint total (h : list (option job)) : nat := match h with [] => 0 | o :: h => f o + total h end.
Lemma total_app h k : total (h ++ k) = total h + total k.
Proof. induction h as [|o h IH]; cbn; lia. Qed.
Lemma total_upd h a o o' : nth_error h a = Some o -> total (upd h a o') + f o = total h + f o'.
Proof. revert a. induction h as [|x h IH]; intros [|a] E; cbn in *; try discriminate; [injection E as ->; lia|]. specialize (IH _ E). lia. Qed.
Lemma total_ge h a o : nth_error h a = Some o -> f o <= total h.
Proof. revert a. induction h as [|x h IH]; intros [|a] E; cbn in *; try discriminate; [injection E as ->; lia|]. specialize (IH _ E). lia. Qed.
Lemma total_zero h : (forall a o, nth_error h a = Some o -> f o = 0) -> total h = 0.
Proof.
  induction h as [|x h IH]; intros H; cbn; [reflexivity|].
  rewrite (H 0 x eq_refl), IH; [reflexivity|]. intros a o E. apply (H (S a) o E).
Qed.
End Total.

Definition occ (a : addr) (l : list addr) : nat := count_occ Nat.eq_dec l a.
Lemma occ_app a l k : occ a (l ++ k) = occ a l + occ a k.
Proof. apply count_occ_app. Qed.
Lemma occ_in a l : In a l <-> 1 <= occ a l.
Proof. unfold occ. rewrite (count_occ_In Nat.eq_dec). lia. Qed.
Lemma occ_cons a b l : occ a (b :: l) = (if b =? a then 1 else 0) + occ a l.
Proof. unfold occ. cbn. destruct (Nat.eq_dec b a) as [->|N]; [rewrite Nat.eqb_refl|apply Nat.eqb_neq in N; rewrite N]; reflexivity. Qed.
Lemma occ_perm a l k : Permutation l k -> occ a l = occ a k.
Proof. intros H. unfold occ. revert a. now apply (Permutation_count_occ Nat.eq_dec). Qed.

Definition inner (h : list (option job)) (a : addr) : nat := total (fun o => match o with Some j => occ a (refsOf (res j)) | None => 0 end) h.
Lemma inner_ge h a b j : nth_error h b = Some (Some j) -> In a (refsOf (res j)) -> 1 <= inner h a.
Proof. intros E H. apply occ_in in H. pose proof (total_ge (fun o => match o with Some j => occ a (refsOf (res j)) | None => 0 end) h b _ E) as T. cbn in T. unfold inner. lia. Qed.

Lemma getJob_nth s a j : getJob s a = Some j -> nth_error (heap s) a = Some (Some j).
Proof. unfold getJob. destruct (nth_error (heap s) a) as [o|]; congruence. Qed.
Lemma getJob_lt s a j : getJob s a = Some j -> a < length (heap s).
Proof. intros E. apply getJob_nth in E. apply nth_error_Some. congruence. Qed.
Lemma getJob_set s a o b : a < length (heap s) -> getJob (setJob s a o) b = if a =? b then o else getJob s b.
Proof. intros L. unfold getJob, setJob, setHeap. cbn. rewrite nth_upd. destruct (a =? b); [|reflexivity]. apply Nat.ltb_lt in L. now rewrite L. Qed.
Lemma inner_set s a j o b : getJob s a = Some j ->
  inner (heap (setJob s a o)) b + occ b (refsOf (res j)) = inner (heap s) b + match o with Some k => occ b (refsOf (res k)) | None => 0 end.
Proof. intros E. apply getJob_nth in E. unfold inner. exact (total_upd _ _ _ _ o E). Qed.

(** Every job is counted right: [X] are the references from outside the heap. *)
Record WF (s : st) (X : list addr) : Prop := mkWF {
  wf_ids : forall a b j k, getJob s a = Some j -> getJob s b = Some k -> jid j = jid k -> a = b;
  wf_count : forall a, match getJob s a with Some j => count j = occ a X + inner (heap s) a | None => occ a X + inner (heap s) a = 0 end }.
Definition alive (s : st) (a : addr) : Prop := exists j, getJob s a = Some j.
Lemma wf_alive s X a : WF s X -> In a X -> alive s a.
Proof. intros W H. apply occ_in in H. pose proof (wf_count s X W a) as C. unfold alive. destruct (getJob s a) as [j|]; [now exists j|lia]. Qed.
Lemma wf_ref s X a b j : WF s X -> getJob s b = Some j -> In a (refsOf (res j)) -> alive s a.
Proof. intros W E H. pose proof (inner_ge _ _ _ _ (getJob_nth _ _ _ E) H) as I. pose proof (wf_count s X W a) as C. unfold alive. destruct (getJob s a) as [k|]; [now exists k|lia]. Qed.
Lemma wf_perm s X Y : WF s X -> (forall a, occ a X = occ a Y) -> WF s Y.
Proof. intros [I C] H. split; [exact I|]. intros a. specialize (C a). rewrite <- (H a). exact C. Qed.
Lemma wf_same s s' X : heap s' = heap s -> WF s X -> WF s' X.
Proof. intros E [I C]. assert (G : forall a, getJob s' a = getJob s a) by (intros a; unfold getJob; now rewrite E). split; intros; [rewrite G in *; eauto|]. rewrite G, E. apply C. Qed.

(** Jobs only disappear: nothing else changes but counts. *)
Record shrinks (s s' : st) : Prop := mkshr {
  sh_jobs : forall a k, getJob s' a = Some k -> exists j, getJob s a = Some j /\ jid j = jid k /\ res j = res k;
  sh_len : length (heap s') = length (heap s);
  sh_rest : wish s' = wish s /\ checked s' = checked s /\ deferred s' = deferred s /\ cooked s' = cooked s }.
Lemma shrinks_refl s : shrinks s s.
Proof. split; [eauto|reflexivity|auto]. Qed.
Lemma shrinks_trans s t u : shrinks s t -> shrinks t u -> shrinks s u.
Proof.
  intros [A L (B1 & B2 & B3 & B4)] [A' L' (C1 & C2 & C3 & C4)]. split; [|congruence|repeat split; congruence].
  intros a k E. destruct (A' _ _ E) as (j & E1 & I1 & R1). destruct (A _ _ E1) as (j0 & E0 & I0 & R0). exists j0. repeat split; congruence.
Qed.

Lemma drop_ok fuel : forall s l X, WF s (l ++ X) -> counts (heap s) <= fuel ->
  exists s', drop fuel s l = Ok s' /\ WF s' X /\ shrinks s s' /\
    forall K : addr -> Prop, (forall a, K a -> In a X \/ exists b j, K b /\ getJob s b = Some j /\ In a (refsOf (res j))) -> forall a, K a -> alive s' a.
Proof.
  induction fuel as [|fuel IH]; intros s l X W F.
  - destruct l as [|a l].
    + exists s. cbn. split; [reflexivity|]. split; [exact W|]. split; [apply shrinks_refl|].
      intros K HK a Ka. destruct (HK a Ka) as [H|(b & j & _ & E & H)]; [eapply wf_alive; eauto|eapply wf_ref; eauto].
    + exfalso. destruct (wf_alive _ _ a W (or_introl eq_refl)) as (j & E). pose proof (wf_count _ _ W a) as C. rewrite E in C. rewrite occ_app, occ_cons, Nat.eqb_refl in C.
      apply getJob_nth in E. pose proof (total_ge (fun o => match o with Some j => count j | None => 0 end) _ _ _ E) as T. cbn in T.
      assert (counts (heap s) = total (fun o => match o with Some j => count j | None => 0 end) (heap s)) as Q.
      { generalize (heap s). intros h. induction h as [|[x|] h IHh]; cbn; auto. }
      lia.
  - destruct l as [|a l].
    + exists s. cbn. split; [reflexivity|]. split; [exact W|]. split; [apply shrinks_refl|].
      intros K HK a Ka. destruct (HK a Ka) as [H|(b & j & _ & E & H)]; [eapply wf_alive; eauto|eapply wf_ref; eauto].
    + assert (Q : forall h, counts h = total (fun o => match o with Some j => count j | None => 0 end) h) by (intros h; induction h as [|[x|] h IHh]; cbn; auto).
      destruct (wf_alive _ _ a W (or_introl eq_refl)) as (j & E). pose proof (wf_count _ _ W a) as C. rewrite E in C. rewrite occ_app, occ_cons, Nat.eqb_refl in C.
      pose proof (getJob_lt _ _ _ E) as L. pose proof (getJob_nth _ _ _ E) as EN.
      cbn [drop]. rewrite E. destruct (count j) as [|[|n]] eqn:CJ; [lia| |].
      * (* deleted *)
        assert (W1 : WF (setJob s a None) ((refsOf (res j) ++ l) ++ X)).
        { split.
          - intros b c k1 k2. rewrite !getJob_set by exact L. destruct (a =? b); [discriminate|]. destruct (a =? c); [discriminate|]. apply (wf_ids _ _ W).
          - intros b. rewrite getJob_set by exact L. pose proof (inner_set s a j None b E) as I. cbv iota in I. rewrite !occ_app.
            pose proof (wf_count _ _ W b) as Cb. rewrite occ_app, occ_cons in Cb. destruct (Nat.eqb_spec a b) as [->|N].
            + rewrite E in Cb. cbv iota. lia.
            + destruct (getJob s b); lia. }
        assert (F1 : counts (heap (setJob s a None)) <= fuel).
        { rewrite Q in *. pose proof (total_upd (fun o => match o with Some j => count j | None => 0 end) _ _ _ None EN) as T. cbn in T |- *. lia. }
        destruct (IH _ _ _ W1 F1) as (s' & D & W' & S' & K').
        exists s'. split; [exact D|]. split; [exact W'|]. split.
        { apply (shrinks_trans _ (setJob s a None)); [|exact S']. split; [|cbn; apply upd_length|repeat split].
          intros b k. rewrite getJob_set by exact L. destruct (a =? b); [discriminate|]. eauto. }
        intros K HK. assert (NK : ~ K a).
        { intros Ka. destruct (HK a Ka) as [H|(b & k & _ & Eb & H)]; [apply occ_in in H; lia|].
          pose proof (inner_ge _ _ _ _ (getJob_nth _ _ _ Eb) H). lia. }
        apply K'. intros b Kb. destruct (HK b Kb) as [H|(c & k & Kc & Ec & H)]; [now left|right].
        exists c, k. split; [exact Kc|]. split; [|exact H]. rewrite getJob_set by exact L. destruct (Nat.eqb_spec a c) as [->|]; [tauto|exact Ec].
      * (* one less *)
        set (s1 := setJob s a (Some (mkjob (jid j) (S n) (res j)))).
        assert (G : forall b, getJob s1 b = if a =? b then Some (mkjob (jid j) (S n) (res j)) else getJob s b) by (intros b; apply getJob_set; exact L).
        assert (W1 : WF s1 (l ++ X)).
        { split.
          - intros b c k1 k2. rewrite !G. intros E1 E2 IE. destruct (Nat.eqb_spec a b) as [->|N]; destruct (Nat.eqb_spec b c) as [->|N2].
            + reflexivity.
            + injection E1 as <-. apply (wf_ids _ _ W b c j k2 E E2 IE).
            + reflexivity.
            + destruct (Nat.eqb_spec a c) as [->|N3]; [injection E2 as <-; apply (wf_ids _ _ W b c k1 j E1 E IE)|apply (wf_ids _ _ W b c k1 k2 E1 E2 IE)].
          - intros b. rewrite G. pose proof (inner_set s a j (Some (mkjob (jid j) (S n) (res j))) b E) as I. cbn [res] in I. fold s1 in I.
            pose proof (wf_count _ _ W b) as Cb. cbn [app] in Cb. rewrite occ_cons, occ_app in Cb. rewrite occ_app. destruct (Nat.eqb_spec a b) as [->|N].
            + rewrite E in Cb. cbn [count]. lia.
            + destruct (getJob s b); lia. }
        assert (F1 : counts (heap s1) <= fuel).
        { rewrite Q in *. pose proof (total_upd (fun o => match o with Some j => count j | None => 0 end) _ _ _ (Some (mkjob (jid j) (S n) (res j))) EN) as T. cbn in T |- *. lia. }
        destruct (IH _ _ _ W1 F1) as (s' & D & W' & S' & K').
        exists s'. split; [exact D|]. split; [exact W'|]. split.
        { apply (shrinks_trans _ s1); [|exact S']. split; [|cbn; apply upd_length|repeat split].
          intros b k. rewrite G. destruct (Nat.eqb_spec a b) as [->|]; [|eauto]. intros [= <-]. now exists j. }
        intros K HK. apply K'. intros b Kb. destruct (HK b Kb) as [H|(c & k & Kc & Ec & H)]; [now left|right].
        destruct (Nat.eqb_spec a c) as [->|N].
        -- exists c, (mkjob (jid j) (S n) (res j)). split; [exact Kc|]. split; [rewrite G, Nat.eqb_refl; reflexivity|]. cbn. congruence.
        -- exists c, k. split; [exact Kc|]. split; [|exact H]. rewrite G. apply Nat.eqb_neq in N. now rewrite N.
Qed.
Lemma dropAll_ok s l X : WF s (l ++ X) ->
  exists s', dropAll s l = Ok s' /\ WF s' X /\ shrinks s s' /\
    forall K : addr -> Prop, (forall a, K a -> In a X \/ exists b j, K b /\ getJob s b = Some j /\ In a (refsOf (res j))) -> forall a, K a -> alive s' a.
Proof. intros W. apply drop_ok; [exact W|reflexivity]. Qed.
