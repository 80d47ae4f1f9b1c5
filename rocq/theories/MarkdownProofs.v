(* Proofs about the inline elements of Markdown. *)
From Coq Require Import Lia ZifyBool ZifyNat.
From Coq Require Import String.
From Verif Require Import MarkdownSpec StringViewProofs.
Local Open Scope list_scope.
Local Notation length := List.length.

Lemma white_iff c : isWhite c = true <-> white c.
Proof. unfold isWhite, white. rewrite !orb_true_iff, !Z.eqb_eq. tauto. Qed.
Lemma white_not c : isWhite c = false <-> ~ white c.
Proof. rewrite <- white_iff. destruct (isWhite c); split; congruence || (intros H; exfalso; apply H; reflexivity). Qed.

Lemma span_spec f l : let (a, b) := span f l in l = a ++ b /\ Forall (fun c => f c = true) a /\ (forall c, hd_error b = Some c -> f c = false).
Proof.
  induction l as [|c l IH]; cbn [span]; [repeat split; [constructor|discriminate]|].
  destruct (f c) eqn:E.
  - destruct (span f l) as [a b]. destruct IH as (H1 & H2 & H3). subst l. repeat split; [constructor; assumption|exact H3].
  - repeat split; [constructor|]. cbn. intros d K. injection K as <-. exact E.
Qed.

Lemma app_inv_length_r {A} (a b c d : list A) : a ++ b = c ++ d -> length b = length d -> a = c /\ b = d.
Proof.
  intros E L. assert (length a = length c) by (apply (f_equal (@List.length A)) in E; rewrite !app_length in E; lia).
  revert c E H. induction a as [|x a IH]; intros [|y c] E H; try discriminate H; [split; [reflexivity|exact E]|].
  injection E as -> E. injection H as H. destruct (IH _ E H) as [-> ->]. split; reflexivity.
Qed.
(** The text that is left. *)
Definition restText (k : ic) : list Z := after k ++ flat_map (fun l => 10 :: l) (later k).
Lemma left_rest k : left_ k = length (restText k).
Proof.
  unfold left_, restText. rewrite app_length. f_equal. induction (later k) as [|l ls IH]; [reflexivity|].
  cbn [map flat_map]. unfold list_sum in *. cbn [fold_right app length]. rewrite IH, app_length. reflexivity.
Qed.
(** The consumer goes from [k] to [k2] over the text [t]. *)
Definition moves (k : ic) (t : list Z) (k2 : ic) : Prop :=
  restText k = t ++ restText k2 /\ exists y, before k ++ t = y ++ before k2.
Definition no10 (l : list Z) : Prop := ~ In 10 l.
Definition ok (k : ic) : Prop := no10 (before k) /\ no10 (after k) /\ Forall lineOk (later k).
Lemma no10_app a b : no10 (a ++ b) <-> no10 a /\ no10 b.
Proof. unfold no10. rewrite in_app_iff. tauto. Qed.

Lemma moves_refl k : moves k [] k.
Proof. split; [reflexivity|]. exists []. apply app_nil_r. Qed.
Lemma moves_trans a s b t c : moves a s b -> moves b t c -> moves a (s ++ t) c.
Proof.
  intros [H1 [y H2]] [H3 [z H4]]. split; [rewrite H1, H3, app_assoc; reflexivity|].
  exists (y ++ z). rewrite app_assoc, H2, <- app_assoc, H4, app_assoc. reflexivity.
Qed.
Lemma moves_step k l r : after k = l ++ r -> moves k l (step k l r).
Proof.
  intros H. unfold moves, restText, step; cbn [before after later]. rewrite H, <- app_assoc. split; [reflexivity|]. exists []. reflexivity.
Qed.
Lemma ok_step k l r : ok k -> after k = l ++ r -> ok (step k l r).
Proof. intros (H1 & H2 & H3) E. rewrite E in H2. apply no10_app in H2. repeat split; cbn [step before after later]; [apply no10_app|..]; tauto. Qed.
Lemma moves_len a t b : moves a t b -> (length (restText a) = length t + length (restText b))%nat.
Proof. intros [-> _]. apply app_length. Qed.

(** What validIndex does. *)
Lemma valid_spec k : ok k ->
  (exists c r, after k = c :: r /\ validIndex k = Some SameLine) \/
  (restText k = [] /\ validIndex k = Some End) \/
  (exists k2, after k = [] /\ validIndex k = Some (NextLine k2) /\ moves k [10] k2 /\ ok k2 /\ after k2 <> [] /\ before k2 = []).
Proof.
  destruct k as [b a lt]. intros (H1 & H2 & H3). cbn [before after later] in *. unfold validIndex, moves, restText; cbn [before after later].
  destruct a as [|c r]; [|left; eauto].
  destruct lt as [|l ls]; [right; left; split; reflexivity|]. right; right.
  inversion H3 as [|? ? [Hl Hn] Hls]; subst. destruct l as [|c l]; [congruence|].
  exists (mkic [] (c :: l) ls). cbn [before after later]. split; [reflexivity|]. split; [reflexivity|]. split; [|split; [|split; [discriminate|reflexivity]]].
  - split; [reflexivity|]. exists (b ++ [10]). rewrite app_nil_r. reflexivity.
  - repeat split; [intros []|exact Hn|exact Hls].
Qed.

(* ---- code spans ---- *)
Definition noRun (n : nat) (body : list Z) : Prop :=
  forall a b, body = a ++ repeat 96 n ++ b -> hd_error (rev a) = Some 96 \/ hd_error b = Some 96.
Lemma rep_S n : (1 <= n)%nat -> exists m, n = S m. Proof. destruct n; [lia|eauto]. Qed.
Lemma noRun_nil n : (1 <= n)%nat -> noRun n [].
Proof. intros H a b E. destruct (rep_S n H) as [m ->]. destruct a; discriminate. Qed.
Lemma last_snoc {A} (l : list A) c : hd_error (rev (l ++ [c])) = Some c.
Proof. rewrite rev_app_distr. reflexivity. Qed.
Lemma rep_snoc n (c : Z) : repeat c (S n) = repeat c n ++ [c].
Proof. induction n as [|n IH]; [reflexivity|]. cbn [repeat app] in *. rewrite <- IH. reflexivity. Qed.
Lemma rep_add n m (c : Z) : repeat c (n + m) = repeat c n ++ repeat c m.
Proof. apply repeat_app. Qed.
Lemma all_rep (c : Z) l : Forall (fun x => x = c) l -> l = repeat c (length l).
Proof. induction 1; [reflexivity|]. cbn. congruence. Qed.
Lemma noRun_char n body c : (1 <= n)%nat -> c <> 96 -> noRun n body -> noRun n (body ++ [c]).
Proof.
  intros Hn Hc H a b E. destruct (rev b) as [|d rb] eqn:R.
  - apply (f_equal (@rev _)) in R. rewrite rev_involutive in R. cbn in R. subst b. rewrite app_nil_r in E.
    destruct (rep_S n Hn) as [m ->]. rewrite rep_snoc, app_assoc in E. apply app_inj_tail in E. destruct E as [_ E]. congruence.
  - apply (f_equal (@rev _)) in R. rewrite rev_involutive in R. cbn in R. subst b. rewrite !app_assoc in E. apply app_inj_tail in E. destruct E as [E _].
    rewrite <- app_assoc in E. destruct (H _ _ E) as [K|K]; [left; exact K|]. right. destruct (rev rb); [discriminate|exact K].
Qed.
Lemma noRun_ticks n m body : (1 <= m)%nat -> m <> n -> body <> [] -> hd_error (rev body) <> Some 96 -> noRun n body -> noRun n (body ++ repeat 96 m).
Proof.
  intros Hm Hne Hb Hl H a b E. destruct (le_lt_dec m (length b)) as [L|L].
  - assert (E2 : body ++ repeat 96 m = (a ++ repeat 96 n ++ firstn (length b - m) b) ++ skipn (length b - m) b) by (rewrite <- !app_assoc, firstn_skipn; exact E).
    apply app_inv_length_r in E2. 2: rewrite repeat_length, skipn_length; lia.
    destruct E2 as [E2 E3]. destruct (H _ _ E2) as [K|K]; [left; exact K|]. right. rewrite <- (firstn_skipn (length b - m) b). destruct (firstn (length b - m) b); [discriminate|exact K].
  - destruct b as [|d b].
    + rewrite app_nil_r in E. left. destruct (le_lt_dec n m) as [L2|L2].
      * replace m with ((m - n) + n)%nat in E by lia. rewrite rep_add, app_assoc in E. apply app_inv_tail in E. subst a.
        destruct (rep_S (m - n)) as [q ->]; [lia|]. rewrite rep_snoc, app_assoc. apply last_snoc.
      * exfalso. replace n with ((n - m) + m)%nat in E by lia. rewrite rep_add, app_assoc in E. apply app_inv_tail in E. subst body.
        destruct (rep_S (n - m)) as [q Q]; [lia|]. rewrite Q, rep_snoc, app_assoc, last_snoc in Hl. congruence.
    + right. cbn. assert (E2 : body ++ repeat 96 (m - length (d :: b)) ++ repeat 96 (length (d :: b)) = (a ++ repeat 96 n) ++ d :: b)
        by (rewrite <- rep_add; replace (m - length (d :: b) + length (d :: b))%nat with m by (cbn [length] in *; lia); rewrite <- app_assoc; exact E).
      rewrite app_assoc in E2. apply app_inv_length_r in E2. 2: rewrite repeat_length; reflexivity. destruct E2 as [_ E2]. cbn in E2. injection E2 as <- _. reflexivity.
Qed.
Definition unline (c : Z) : Z := if c =? 10 then 32 else c.
Lemma hd_rev_snoc {A} (l : list A) d : hd_error (rev l) = Some d -> exists m, l = m ++ [d].
Proof.
  intros H. destruct (rev l) as [|x r] eqn:R; [discriminate|]. injection H as ->. exists (rev r).
  apply (f_equal (@rev _)) in R. rewrite rev_involutive in R. cbn in R. exact R.
Qed.
Lemma last_ex {A} (l : list A) : l <> [] -> exists m d, l = m ++ [d].
Proof. intros H. destruct (rev l) as [|x r] eqn:R; apply (f_equal (@rev _)) in R; rewrite rev_involutive in R; cbn in R; [congruence|eauto]. Qed.
Lemma back_snoc m (d : Z) : zlen (m ++ [d]) < 2 ^ 32 -> sv_back (m ++ [d]) (-1) = Some d.
Proof.
  intros H. unfold sv_back, zlen in *. rewrite app_length in *. cbn [length] in *. change (u32 (- -1 - 1)) with 0.
  destruct (Z.ltb_spec 0 (Z.of_nat (length m + 1))); [|lia]. replace (Z.to_nat (Z.of_nat (length m + 1) + -1)) with (length m) by lia.
  rewrite nth_error_app2, Nat.sub_diag by lia. reflexivity.
Qed.
Lemma find_nonspace l : (0 <=? sv_findByte l (fun c => negb (c =? 32)) 0) = true <-> ~ Forall (fun c => c = 32) l.
Proof.
  destruct (sv_findByte_spec l (fun c => negb (c =? 32)) 0 ltac:(lia)) as [[E H]|H].
  - rewrite E. split; [discriminate|]. intros K. exfalso. apply K. apply Forall_forall. intros x I. apply (In_nth _ _ 0) in I. destruct I as (j & Hj & <-).
    specialize (H (Z.of_nat j)). rewrite Nat2Z.id in H. unfold zlen in H. assert (negb (nth j l 0 =? 32) = false) by (apply H; lia). lia.
  - destruct H as (H1 & H2 & H3). split; [|lia]. intros _ K. rewrite Forall_forall in K. assert (nth (Z.to_nat (sv_findByte l (fun c => negb (c =? 32)) 0)) l 0 = 32); [|lia].
    apply K. apply nth_In. unfold zlen in *. lia.
Qed.
Lemma spanText_ok body : body <> [] -> exists t, spanText (map unline body) = Some t /\ codeText body t.
Proof.
  intros Hb. assert (Hne : map unline body <> []) by (destruct body; [congruence|discriminate]).
  unfold spanText. set (o := map unline body) in *. destruct (last_ex o Hne) as (m & d & E).
  assert (B : sv_back o (-1) = Some d).
  { rewrite E. unfold sv_back, zlen. rewrite app_length. cbn [length]. change (u32 (- -1 - 1)) with 0.
    destruct (Z.ltb_spec 0 (Z.of_nat (length m + 1))); [|lia]. replace (Z.to_nat (Z.of_nat (length m + 1) + -1)) with (length m) by lia.
    rewrite nth_error_app2, Nat.sub_diag by lia. reflexivity. }
  rewrite B. destruct o as [|c o'] eqn:Eo; [congruence|]. cbn [hd_error].
  destruct ((c =? 32) && (d =? 32) && (0 <=? sv_findByte (c :: o') (fun c0 => negb (c0 =? 32)) 0)) eqn:C.
  - apply andb_true_iff in C. destruct C as [C C3]. apply andb_true_iff in C. destruct C as [C1 C2]. apply find_nonspace in C3.
    assert (c = 32) by lia. assert (d = 32) by lia. subst c d. destruct m as [|x m].
    + cbn in E. injection E as ->. exfalso. apply C3. constructor; [reflexivity|constructor].
    + cbn in E. injection E as <- E. eexists. split; [reflexivity|].
      assert (F : firstn (length (32 :: o') - 2) (skipn 1 (32 :: o')) = m).
      { cbn [skipn length]. rewrite E. rewrite app_length. cbn [length]. replace (S (length m + 1) - 2)%nat with (length m) by lia. rewrite firstn_app, firstn_all, Nat.sub_diag, firstn_O, app_nil_r. reflexivity. }
      rewrite F. apply code_strip.
      * fold unline. change (fun c => if c =? 10 then 32 else c) with unline. subst o. rewrite Eo, E. reflexivity.
      * intros K. apply C3. rewrite E. constructor; [reflexivity|]. apply Forall_app. split; [exact K|]. constructor; [reflexivity|constructor].
  - eexists. split; [reflexivity|]. apply code_same; [change (fun c => if c =? 10 then 32 else c) with unline; subst o; congruence|].
    intros u K. destruct (Forall_dec (fun c => c = 32) (fun c => Z.eq_dec c 32) u) as [F|F]; [exact F|]. exfalso.
    cbn in K. injection K as -> K. assert (d = 32). { rewrite K in E. rewrite app_comm_cons in E. apply app_inj_tail in E. symmetry. apply E. } subst d.
    assert (N : (0 <=? sv_findByte (32 :: o') (fun c0 => negb (c0 =? 32)) 0) = true). { apply find_nonspace. intros A. apply F. rewrite K in A. inversion A; subst. apply Forall_app in H2. apply H2. }
    rewrite N in C. discriminate.
Qed.

Lemma ticks_rep a : Forall (fun c => (c =? 96) = true) a -> a = repeat 96 (length a).
Proof. intros H. apply all_rep. eapply Forall_impl; [|exact H]. cbn. lia. Qed.

(** From position [k] on, after [body] was read between the ticks. *)
Lemma codeSpan_spec n fuel : (1 <= n)%nat -> forall k body, ok k -> (length (restText k) < fuel)%nat ->
  noRun n body -> hd_error body <> Some 96 -> (body = [] \/ hd_error (rev body) = Some 96 -> hd_error (after k) <> Some 96) ->
  exists r, getCodeSpan fuel k n (map unline body) = Some r /\
    match r with
    | None => True
    | Some (t, k2) => exists more, moves k (more ++ repeat 96 n) k2 /\ ok k2 /\ closedBy n (body ++ more) /\ codeText (body ++ more) t /\ t <> []
    end.
Proof.
  intros Hn. induction fuel as [|fuel IH]; intros k body Hk Hf Hr Hh Ht; [lia|]. cbn [getCodeSpan].
  (* one character or run of the current line *)
  assert (G : forall k body c r, ok k -> (length (restText k) <= fuel)%nat -> noRun n body -> hd_error body <> Some 96 ->
     (body = [] \/ hd_error (rev body) = Some 96 -> hd_error (after k) <> Some 96) -> after k = c :: r ->
     exists res, (if c =? 96 then let (ticks, r) := span (fun c => c =? 96) r in
          let k := step k (c :: ticks) r in
          if (length (c :: ticks) =? n)%nat then match spanText (map unline body) with Some t => Some (Some (t, k)) | None => None end
          else getCodeSpan fuel k n (map unline body ++ c :: ticks)
        else getCodeSpan fuel (step k [c] r) n (map unline body ++ [c])) = Some res /\
     match res with
      | None => True
      | Some (t, k2) => exists more, moves k (more ++ repeat 96 n) k2 /\ ok k2 /\ closedBy n (body ++ more) /\ codeText (body ++ more) t /\ t <> []
      end).
  { clear k body Hk Hf Hr Hh Ht. intros k body c r Hk Hf Hr Hh Ht E. destruct (Z.eqb_spec c 96) as [->|Hc].
    - assert (Hb : body <> [] /\ hd_error (rev body) <> Some 96) by (rewrite E in Ht; cbn in Ht; split; intros K; apply Ht; auto).
      destruct Hb as [Hb Hl]. pose proof (span_spec (fun c => c =? 96) r) as S. destruct (span (fun c => c =? 96) r) as [ticks r2]. destruct S as (S1 & S2 & S3).
      assert (E2 : after k = (96 :: ticks) ++ r2) by (rewrite E, S1; reflexivity).
      assert (T : 96 :: ticks = repeat 96 (length (96 :: ticks))) by (apply (ticks_rep (96 :: ticks)); constructor; [reflexivity|exact S2]).
      pose proof (moves_step k (96 :: ticks) r2 E2) as M. pose proof (ok_step k _ _ Hk E2) as O. cbv zeta.
      destruct (Nat.eqb_spec (length (96 :: ticks)) n) as [En|En].
      + destruct (spanText_ok body Hb) as (t & Et & Ct). rewrite Et. eexists. split; [reflexivity|]. exists []. cbn [app]. rewrite app_nil_r. rewrite <- En, <- T.
        split; [exact M|]. split; [exact O|]. rewrite En. split; [repeat split; assumption|]. split; [exact Ct|].
        destruct Ct as [t Q N|t Q N]; [intros ->; apply N; constructor|]. subst t. destruct body; [congruence|discriminate].
      + replace (map unline body ++ 96 :: ticks) with (map unline (body ++ 96 :: ticks)).
        2:{ rewrite map_app. f_equal. rewrite T. generalize (length (96 :: ticks)). intros q. induction q as [|q IHq]; [reflexivity|]. cbn. rewrite IHq. reflexivity. }
        destruct (IH (step k (96 :: ticks) r2) (body ++ 96 :: ticks)) as (res & R1 & R2).
        * exact O.
        * pose proof (moves_len _ _ _ M) as L. cbn [length] in L. lia.
        * rewrite T. apply noRun_ticks; try assumption. cbn; lia.
        * destruct body; [congruence|exact Hh].
        * intros _. cbn [step after]. intros K. specialize (S3 _ K). discriminate.
        * exists res. split; [exact R1|]. destruct res as [[t k2]|]; [|exact I]. destruct R2 as (more & Q1 & Q2 & Q3 & Q4). exists ((96 :: ticks) ++ more).
          split; [rewrite <- app_assoc; eapply moves_trans; eassumption|]. rewrite <- app_assoc in Q3, Q4. split; [exact Q2|]. split; [exact Q3|exact Q4].
    - assert (C10 : c <> 10). { destruct Hk as (_ & K & _). intros ->. apply K. rewrite E. left. reflexivity. }
      assert (E2 : after k = [c] ++ r) by exact E.
      pose proof (moves_step k [c] r E2) as M. pose proof (ok_step k _ _ Hk E2) as O.
      replace (map unline body ++ [c]) with (map unline (body ++ [c])). 2:{ rewrite map_app. cbn. unfold unline at 2. destruct (Z.eqb_spec c 10); [congruence|reflexivity]. }
      destruct (IH (step k [c] r) (body ++ [c])) as (res & R1 & R2).
      + exact O.
      + pose proof (moves_len _ _ _ M) as L. cbn [length] in L. lia.
      + apply noRun_char; assumption.
      + destruct body; [cbn; congruence|exact Hh].
      + intros [K|K]; [destruct body; discriminate|]. rewrite last_snoc in K. congruence.
      + exists res. split; [exact R1|]. destruct res as [[t k2]|]; [|exact I]. destruct R2 as (more & Q1 & Q2 & Q3 & Q4). exists ([c] ++ more).
        split; [rewrite <- app_assoc; eapply moves_trans; eassumption|]. rewrite <- app_assoc in Q3, Q4. split; [exact Q2|]. split; [exact Q3|exact Q4]. }
  destruct (valid_spec k Hk) as [(c & r & E & V)|[[E V]|(k2 & E & V & M & O & Ne & B)]]; rewrite V.
  - rewrite E. apply G; try assumption. lia.
  - exists None. split; [reflexivity|exact I].
  - destruct (after k2) as [|c r] eqn:E2; [congruence|].
    destruct (G k2 (body ++ [10]) c r O) as (res & R1 & R2).
    + pose proof (moves_len _ _ _ M) as L. cbn [length] in L. lia.
    + apply noRun_char; [assumption|lia|assumption].
    + destruct body; [cbn; congruence|exact Hh].
    + intros [K|K]; [destruct body; discriminate|]. rewrite last_snoc in K. congruence.
    + exact E2.
    + exists res. rewrite map_app in R1. split; [exact R1|]. destruct res as [[t k3]|]; [|exact I]. destruct R2 as (more & Q1 & Q2 & Q3 & Q4). exists ([10] ++ more).
      split; [rewrite <- app_assoc; eapply moves_trans; eassumption|]. rewrite <- app_assoc in Q3, Q4. split; [exact Q2|]. split; [exact Q3|exact Q4].
Qed.

(* ---- links ---- *)
Lemma skipSpace_spec fuel : forall k, ok k -> (length (restText k) < fuel)%nat ->
  exists r, skipSpace fuel k = Some r /\
    match r with
    | None => True
    | Some k2 => exists w, moves k w k2 /\ Forall white w /\ ok k2 /\ exists c r, after k2 = c :: r /\ isWhite c = false
    end.
Proof.
  induction fuel as [|fuel IH]; intros k Hk Hf; [lia|]. cbn [skipSpace].
  assert (G : forall k c r, ok k -> (length (restText k) <= fuel)%nat -> after k = c :: r ->
    exists res, (if isWhite c then skipSpace fuel (step k [c] r) else Some (Some k)) = Some res /\
    match res with
    | None => True
    | Some k2 => exists w, moves k w k2 /\ Forall white w /\ ok k2 /\ exists c r, after k2 = c :: r /\ isWhite c = false
    end).
  { clear k Hk Hf. intros k c r Hk Hf E. destruct (isWhite c) eqn:W.
    - pose proof (moves_step k [c] r E) as M. pose proof (ok_step k [c] r Hk E) as O. pose proof (moves_len _ _ _ M) as L. cbn [length] in L.
      destruct (IH _ O) as (res & R1 & R2); [lia|]. exists res. split; [exact R1|]. destruct res as [k2|]; [|exact I]. destruct R2 as (w & Q1 & Q2 & Q3 & Q4).
      exists ([c] ++ w). split; [eapply moves_trans; eassumption|]. split; [constructor; [apply white_iff; exact W|exact Q2]|]. split; assumption.
    - exists (Some k). split; [reflexivity|]. exists []. split; [apply moves_refl|]. split; [constructor|]. split; [exact Hk|]. eauto. }
  destruct (valid_spec k Hk) as [(c & r & E & V)|[[E V]|(k2 & E & V & M & O & Ne & B)]]; rewrite V.
  - rewrite E. apply G; try assumption. lia.
  - exists None. split; [reflexivity|exact I].
  - destruct (after k2) as [|c r] eqn:E2; [congruence|]. pose proof (moves_len _ _ _ M) as L. cbn [length] in L.
    destruct (G k2 c r O) as (res & R1 & R2); [lia|exact E2|]. exists res. split; [exact R1|]. destruct res as [k3|]; [|exact I]. destruct R2 as (w & Q1 & Q2 & Q3 & Q4).
    exists ([10] ++ w). split; [eapply moves_trans; eassumption|]. split; [constructor; [unfold white; tauto|exact Q2]|]. split; assumption.
Qed.

Lemma destLoop_spec fuel : forall k nest raw out, ok k -> (length (restText k) < fuel)%nat -> Forall (fun c => 32 < c) raw ->
  (~ In 92 raw -> out = raw /\ forall x, balanced nest x -> balanced 0 (raw ++ x)) -> Forall (fun c => In c raw \/ hd_error (after k) = Some c) out ->
  exists out2 nest2 k2 more nl, destLoop fuel k nest out = Some (out2, nest2, k2) /\ moves k (more ++ nl) k2 /\ Forall white nl /\ ok k2 /\
    Forall (fun c => 32 < c) (raw ++ more) /\
    (~ In 92 (raw ++ more) -> out2 = raw ++ more /\ forall x, balanced nest2 x -> balanced 0 ((raw ++ more) ++ x)) /\
    Forall (fun c => In c (raw ++ more) \/ (nl = [] /\ hd_error (after k2) = Some c)) out2.
Proof.
  induction fuel as [|fuel IH]; intros k nest raw out Hk Hf Hr Hb Ho; [lia|]. cbn [destLoop].
  destruct (valid_spec k Hk) as [(c & r & E & V)|[[E V]|(k2 & E & V & M & O & Ne & B)]]; rewrite V.
  2:{ exists out, nest, k, [], []. rewrite !app_nil_r. split; [reflexivity|]. split; [apply moves_refl|]. split; [constructor|]. split; [exact Hk|]. split; [exact Hr|]. split; [exact Hb|]. eapply Forall_impl; [|exact Ho]. cbn. tauto. }
  2:{ exists out, nest, k2, [], [10]. rewrite !app_nil_r. split; [reflexivity|]. split; [exact M|]. split; [constructor; [unfold white; tauto|constructor]|]. split; [exact O|]. split; [exact Hr|]. split; [exact Hb|]. eapply Forall_impl; [|exact Ho]. cbn. rewrite E. intros c [K|K]; [auto|discriminate]. }
  rewrite E in *. pose proof (moves_step k [c] r E) as M. pose proof (ok_step k [c] r Hk E) as O. pose proof (moves_len _ _ _ M) as L. cbn [length] in L.
  assert (Stop : exists out2 nest2 k2 more nl, Some (out, nest, k) = Some (out2, nest2, k2) /\ moves k (more ++ nl) k2 /\ Forall white nl /\ ok k2 /\
    Forall (fun c => 32 < c) (raw ++ more) /\
    (~ In 92 (raw ++ more) -> out2 = raw ++ more /\ forall x, balanced nest2 x -> balanced 0 ((raw ++ more) ++ x)) /\
    Forall (fun c => In c (raw ++ more) \/ (nl = [] /\ hd_error (after k2) = Some c)) out2).
  { exists out, nest, k, [], []. rewrite !app_nil_r. split; [reflexivity|]. split; [apply moves_refl|]. split; [constructor|]. split; [exact Hk|]. split; [exact Hr|]. split; [exact Hb|]. eapply Forall_impl; [|exact Ho]. cbn. rewrite E. tauto. }
  assert (Go : forall nest' out', 32 < c -> (~ In 92 (raw ++ [c]) -> out' = raw ++ [c] /\ forall x, balanced nest' x -> balanced 0 ((raw ++ [c]) ++ x)) -> Forall (fun x => In x (raw ++ [c]) \/ hd_error r = Some x) out' ->
    exists out2 nest2 k2 more nl, destLoop fuel (step k [c] r) nest' out' = Some (out2, nest2, k2) /\ moves k (more ++ nl) k2 /\ Forall white nl /\ ok k2 /\
    Forall (fun c => 32 < c) (raw ++ more) /\
    (~ In 92 (raw ++ more) -> out2 = raw ++ more /\ forall x, balanced nest2 x -> balanced 0 ((raw ++ more) ++ x)) /\
    Forall (fun c => In c (raw ++ more) \/ (nl = [] /\ hd_error (after k2) = Some c)) out2).
  { intros nest' out' C H Ho'. destruct (IH (step k [c] r) nest' (raw ++ [c]) out') as (out2 & nest2 & k2 & more & nl & R1 & R2 & R3 & R4 & R5 & R6 & R7); [exact O|lia|apply Forall_app; split; [exact Hr|constructor; [exact C|constructor]]|exact H|exact Ho'|].
    exists out2, nest2, k2, ([c] ++ more), nl. split; [exact R1|]. split; [rewrite <- app_assoc; eapply moves_trans; eassumption|]. split; [exact R3|]. split; [exact R4|].
    rewrite <- (app_assoc raw [c] more) in R5, R6, R7. split; [exact R5|]. split; [exact R6|exact R7]. }
  assert (Old : Forall (fun x => In x (raw ++ [c]) \/ hd_error r = Some x) out).
  { eapply Forall_impl; [|exact Ho]. cbn. intros x [K|K]; left; apply in_app_iff; [auto|]. injection K as ->. right. left. reflexivity. }
  assert (New : Forall (fun x => In x (raw ++ [c]) \/ hd_error r = Some x) (out ++ [c])).
  { apply Forall_app. split; [exact Old|]. constructor; [|constructor]. left. apply in_app_iff. right. left. reflexivity. }
  destruct (Z.eqb_spec c 92) as [->|N92].
  - destruct (valid_spec (step k [92] r) O) as [(d & r2 & E2 & V2)|[[E2 V2]|(k2 & E2 & V2 & M2 & O2 & Ne2 & B2)]]; rewrite V2.
    + rewrite E2. cbn [hd_error]. cbn [step after] in E2. subst r. apply Go; [lia| |].
      * intros K. exfalso. apply K. apply in_app_iff. right. left. reflexivity.
      * apply Forall_app. split; [exact Old|]. apply Forall_app. split; [|constructor; [right; reflexivity|constructor]].
        destruct (isAscPunc d); constructor; [|constructor]. left. apply in_app_iff. right. left. reflexivity.
    + assert (Er : r = []) by (destruct r; [reflexivity|discriminate]).
      exists (out ++ [92]), nest, (step k [92] r), [92], []. split; [reflexivity|]. split; [exact M|]. split; [constructor|]. split; [exact O|].
      split; [apply Forall_app; split; [exact Hr|constructor; [lia|constructor]]|]. split; [intros K; exfalso; apply K; apply in_app_iff; right; left; reflexivity|]. eapply Forall_impl; [|exact New]. cbn. subst r. intros x [K|K]; [auto|discriminate].
    + exists (out ++ [92]), nest, k2, [92], [10]. split; [reflexivity|]. split; [exact (moves_trans _ _ _ _ _ M M2)|]. split; [constructor; [unfold white; tauto|constructor]|]. split; [exact O2|].
      split; [apply Forall_app; split; [exact Hr|constructor; [lia|constructor]]|]. split; [intros K; exfalso; apply K; apply in_app_iff; right; left; reflexivity|]. eapply Forall_impl; [|exact New]. cbn. cbn [step after] in E2. rewrite E2. intros x [K|K]; [auto|discriminate].
  - assert (NB : ~ In 92 (raw ++ [c]) -> ~ In 92 raw) by (intros K I; apply K; apply in_app_iff; auto).
    destruct (Z.eqb_spec c 40) as [->|N40]; [apply Go; [lia| |exact New]; intros K; destruct (Hb (NB K)) as [-> H]; split; [reflexivity|]; intros x Hx; rewrite <- app_assoc; apply H; exact Hx|].
    destruct (Z.eqb_spec c 41) as [->|N41].
    + destruct nest as [|nest]; [exact Stop|]. apply Go; [lia| |exact New]. intros K; destruct (Hb (NB K)) as [-> H]; split; [reflexivity|]; intros x Hx; rewrite <- app_assoc; apply H; exact Hx.
    + destruct (Z.leb_spec c 32) as [L32|L32]; [exact Stop|]. apply Go; [lia| |exact New]. intros K; destruct (Hb (NB K)) as [-> H]; split; [reflexivity|]; intros x Hx; rewrite <- app_assoc; apply H.
      cbn. destruct (Z.eqb_spec c 40); [congruence|]. destruct (Z.eqb_spec c 41); [congruence|]. exact Hx.
Qed.

Lemma linkDest_spec k : ok k -> exists r, parseLinkDestination k = Some r /\
  match r with
  | None => True
  | Some (dest, k2) => exists w1 raw w2, moves k (w1 ++ raw ++ w2 ++ [41]) k2 /\ Forall white w1 /\ Forall white w2 /\ destText raw dest /\ Forall (fun c => In c (raw ++ w2 ++ [41])) dest /\ ok k2
  end.
Proof.
  intros Hk. unfold parseLinkDestination. destruct (skipSpace_spec (S (left_ k)) k Hk) as (r & -> & R); [rewrite left_rest; lia|].
  destruct r as [k1|]; [|exists None; split; [reflexivity|exact I]]. destruct R as (w1 & M1 & W1 & O1 & _).
  destruct (destLoop_spec (S (left_ k1)) k1 0 [] [] O1) as (out & nest & k2 & raw & nl & E & M2 & W2 & O2 & F & D & Fo); [rewrite left_rest; lia|constructor|intros _; split; [reflexivity|intros x Hx; exact Hx]|constructor|].
  rewrite E. destruct nest as [|nest]; [|exists None; split; [reflexivity|exact I]].
  destruct (skipSpace_spec (S (left_ k2)) k2 O2) as (r & -> & R); [rewrite left_rest; lia|].
  destruct r as [k3|]; [|exists None; split; [reflexivity|exact I]]. destruct R as (w3 & M3 & W3 & O3 & c & r & Ea & Wc). rewrite Ea.
  destruct (Z.eqb_spec c 41) as [->|N]; [|exists None; split; [reflexivity|exact I]].
  eexists. split; [reflexivity|]. exists w1, raw, (nl ++ w3). cbn [app] in *.
  pose proof (moves_step k3 [41] r Ea) as M4. pose proof (moves_trans _ _ _ _ _ M1 (moves_trans _ _ _ _ _ M2 (moves_trans _ _ _ _ _ M3 M4))) as M.
  split; [rewrite <- !app_assoc in M; rewrite <- !app_assoc; exact M|]. split; [exact W1|]. split; [apply Forall_app; split; assumption|].
  split; [split; [exact F|]|split; [|apply ok_step; assumption]].
  2: { eapply Forall_impl; [|exact Fo]. cbn. intros x [K|[-> K]]; rewrite !in_app_iff; [auto|]. right. destruct M3 as [M3 _]. destruct M4 as [M4 _]. rewrite M4 in M3.
    assert (Hx : hd_error (restText k2) = Some x) by (unfold restText; destruct (after k2); [discriminate|exact K]). rewrite M3 in Hx. destruct w3 as [|y w3]; cbn in Hx; injection Hx as <-; cbn; tauto. }
  intros K. destruct (D K) as [-> B]. split; [reflexivity|]. specialize (B [] eq_refl). rewrite app_nil_r in B. exact B.
Qed.

(* ---- delimiters ---- *)
Definition ch (s : bool) : Z := if s then 42 else 95.
Inductive D : delim -> list Z -> Prop :=
| D_raw t : t <> [] -> no10 t -> D (RawText t) t
| D_open : D (OpenLink [91]) [91]
| D_run s l r n : (1 <= n)%nat -> D (Run s l r (repeat (ch s) n)) (repeat (ch s) n)
| D_elem e s : says e s -> D (InlineElem e) s.
Definition starts (s : list Z) : Prop := exists c, hd_error s = Some c /\ ~ white c.
Definition ends (s : list Z) : Prop := exists c, hd_error (rev s) = Some c /\ ~ white c.
Definition isLeft (d : delim) : bool := match d with Run _ l _ _ => l | _ => false end.
Definition isRight (d : delim) : bool := match d with Run _ _ r _ => r | _ => false end.
(** The delimiters [ds] stand for the texts [ss], between [pre] and [post]. *)
Inductive fl : list Z -> list delim -> list (list Z) -> list Z -> Prop :=
| fl_nil pre post : fl pre [] [] post
| fl_cons pre d ds s ss post : D d s -> (isLeft d = true -> starts (concat ss ++ post)) -> (isRight d = true -> ends pre) ->
    fl (pre ++ s) ds ss post -> fl pre (d :: ds) (s :: ss) post.
Lemma fl_app pre a : forall sa b sb post, fl pre a sa (concat sb ++ post) -> fl (pre ++ concat sa) b sb post -> fl pre (a ++ b) (sa ++ sb) post.
Proof.
  intros sa b sb post H. remember (concat sb ++ post) as po eqn:E. induction H as [pre po|pre d ds s ss po H1 H2 H3 H4 IH]; intros Hb; subst.
  - cbn in *. rewrite app_nil_r in Hb. exact Hb.
  - cbn [app concat]. constructor; [assumption| |assumption|].
    + intros L. specialize (H2 L). rewrite concat_app, <- app_assoc. exact H2.
    + apply IH; [reflexivity|]. cbn [concat] in Hb. rewrite <- app_assoc. exact Hb.
Qed.
Lemma fl_split a : forall pre b ss post, fl pre (a ++ b) ss post ->
  exists sa sb, ss = sa ++ sb /\ fl pre a sa (concat sb ++ post) /\ fl (pre ++ concat sa) b sb post /\ length sa = length a.
Proof.
  induction a as [|d a IH]; intros pre b ss post H.
  - exists [], ss. cbn. rewrite app_nil_r. split; [reflexivity|]. split; [constructor|]. split; [exact H|reflexivity].
  - cbn [app] in H. inversion H as [|? ? ? s ss' ? H1 H2 H3 H4]; subst. destruct (IH _ _ _ _ H4) as (sa & sb & -> & K1 & K2 & K3).
    exists (s :: sa), sb. split; [reflexivity|]. split; [|split; [cbn [concat]; rewrite app_assoc; exact K2|cbn; lia]].
    constructor; [assumption| |assumption|assumption]. intros L. specialize (H2 L). rewrite concat_app, <- app_assoc in H2. exact H2.
Qed.

Lemma saysAll_app l : forall s m t, saysAll l s -> saysAll m t -> saysAll (l ++ m) (s ++ t).
Proof.
  induction l as [|e l IH]; intros s m t H K; inversion H; subst; [exact K|]. rewrite <- app_assoc. constructor; [assumption|]. apply IH; assumption.
Qed.
Lemma says_one e s : says e s -> saysAll [e] s.
Proof. intros H. rewrite <- (app_nil_r s). constructor; [exact H|constructor]. Qed.
Lemma addText_ok els : forall s t, saysAll els s -> t <> [] -> no10 t -> saysAll (addText els t) (s ++ t).
Proof.
  induction els as [|e els IH]; intros s t H Ht Hn.
  - inversion H; subst. apply says_one. constructor; assumption.
  - inversion H as [|? ? s1 s2 H1 H2]; subst. destruct els as [|e2 els].
    + inversion H2; subst. rewrite app_nil_r. destruct e; try (cbn [addText]; constructor; [assumption|apply says_one; constructor; assumption]).
      inversion H1; subst. cbn [addText]. apply says_one. constructor; [destruct s1; [congruence|discriminate]|apply no10_app; split; assumption].
    + rewrite <- app_assoc. assert (G : addText (e :: e2 :: els) t = e :: addText (e2 :: els) t) by (destruct e; reflexivity). rewrite G. constructor; [assumption|]. apply IH; assumption.
Qed.
Lemma rep_no10 s n : no10 (repeat (ch s) n).
Proof. intros I. apply repeat_spec in I. destruct s; discriminate. Qed.
Lemma rep_ne (c : Z) n : (1 <= n)%nat -> repeat c n <> [].
Proof. destruct n; [lia|discriminate]. Qed.
Lemma convert_ok pre ds ss post : fl pre ds ss post -> saysAll (convertToInlineElems ds) (concat ss).
Proof.
  unfold convertToInlineElems. intros H. assert (G : forall els s, saysAll els s -> saysAll (fold_left convert1 ds els) (s ++ concat ss)).
  2:{ apply (G [] []). constructor. }
  induction H as [|pre d ds s ss post HD H2 H3 H4 IH]; intros els t Ht; cbn [fold_left concat]; [rewrite app_nil_r; exact Ht|].
  rewrite app_assoc. apply IH. destruct HD; cbn [convert1].
  - apply addText_ok; assumption.
  - apply addText_ok; [assumption|discriminate|intros [E|[]]; discriminate].
  - apply addText_ok; [assumption|apply rep_ne; assumption|apply rep_no10].
  - apply saysAll_app; [assumption|]. apply says_one. assumption.
Qed.

Definition same (d d' : delim) : bool := match d, d' with Run s _ _ _, Run s' _ _ _ => Bool.eqb s s' | _, _ => false end.
Fixpoint adj (ds : list delim) : Prop :=
  match ds with
  | d :: r => match r with d' :: _ => same d d' = false | [] => True end /\ adj r
  | [] => True
  end.
Lemma adj_app a : forall d b, adj (a ++ d :: b) <-> adj (a ++ [d]) /\ adj (d :: b).
Proof.
  induction a as [|x a IH]; intros d b; [cbn; tauto|]. destruct a as [|y a]; [cbn; tauto|].
  specialize (IH d b). cbn [app] in *. change (adj (x :: y :: a ++ d :: b)) with (same x y = false /\ adj (y :: a ++ d :: b)).
  change (adj (x :: y :: a ++ [d])) with (same x y = false /\ adj (y :: a ++ [d])). rewrite IH. tauto.
Qed.
Lemma adj_last a d d' : (forall x, same x d = false -> same x d' = false) -> adj (a ++ [d]) -> adj (a ++ [d']).
Proof.
  intros H. induction a as [|x a IH]; [cbn; tauto|]. destruct a as [|y a]; cbn [app] in *; [cbn; intros [K _]; auto|].
  intros [K1 K2]. split; [exact K1|]. apply IH. exact K2.
Qed.
Lemma adj_snoc a d : (forall x, same x d = false) -> adj a -> adj (a ++ [d]).
Proof.
  intros H. induction a as [|x a IH]; [cbn; tauto|]. destruct a as [|y a]; cbn [app] in *; [cbn; auto|]. intros [K1 K2]. split; [exact K1|]. apply IH. exact K2.
Qed.
Lemma adj_firstn a b : adj (a ++ b) -> adj a.
Proof.
  destruct b as [|d b]; [rewrite app_nil_r; tauto|]. rewrite adj_app. intros [H _]. induction a as [|x a IH]; [exact I|].
  destruct a as [|y a]; [split; exact I|]. cbn [app] in *. destruct H as [H1 H2]. split; [exact H1|]. apply IH. exact H2.
Qed.
Lemma adj_skip a b : adj (a ++ b) -> adj b.
Proof. induction a as [|x a IH]; [tauto|]. cbn [app]. intros [_ H]. auto. Qed.

Definition runLen (d : delim) : nat := match d with Run _ _ _ t => length t | _ => 0 end.
Definition runs (ds : list delim) : nat := list_sum (map runLen ds).
Lemma runs_app a b : runs (a ++ b) = (runs a + runs b)%nat.
Proof. unfold runs. rewrite map_app, list_sum_app. reflexivity. Qed.
Lemma runs_cons d b : runs (d :: b) = (runLen d + runs b)%nat.
Proof. reflexivity. Qed.

Lemma findOpener_spec ds stars lo n j : findOpener ds stars lo n = Some j ->
  (lo <= j < n)%nat /\ exists r t, nth_error ds j = Some (Run stars true r t).
Proof.
  revert j. induction n as [|n IH]; intros j H; [discriminate|]. cbn [findOpener] in H. destruct (Nat.ltb_spec n lo) as [L|L]; [discriminate|].
  assert (G : findOpener ds stars lo n = Some j -> (lo <= j < S n)%nat /\ exists r t, nth_error ds j = Some (Run stars true r t)).
  { intros K. destruct (IH _ K). split; [lia|assumption]. }
  destruct (nth_error ds n) as [[t|s [|] r t|t|e]|] eqn:E; try (exact (G H)).
  destruct (Bool.eqb s stars) eqn:B; [|exact (G H)]. injection H as <-. apply Bool.eqb_prop in B. subst s. split; [lia|]. eauto.
Qed.
Lemma firstn_rep (c : Z) n m : firstn n (repeat c m) = repeat c (Nat.min n m).
Proof. revert m. induction n as [|n IH]; intros [|m]; cbn; [reflexivity..|]. rewrite IH. reflexivity. Qed.
Lemma ends_app a b : b <> [] -> ends (a ++ b) -> ends b.
Proof. intros H (c & E & W). rewrite rev_app_distr in E. destruct (last_ex b H) as (m & d & ->). rewrite rev_app_distr in *. cbn in *. exists c. rewrite rev_app_distr. cbn. auto. Qed.
Lemma starts_app a b : a <> [] -> starts (a ++ b) -> starts a.
Proof. intros H (c & E & W). destruct a; [congruence|]. exists c. cbn in *. auto. Qed.

Lemma D_ne d s : D d s -> s <> [].
Proof.
  intros H. destruct H as [t H|  |s l r n H|e s H]; [assumption|discriminate|apply rep_ne; assumption|].
  destruct H; try assumption; try discriminate. destruct n; [lia|discriminate].
Qed.
Lemma D_opt s l r n : (if (n =? 0)%nat then [] else [Run s l r (repeat (ch s) n)]) = if (n =? 0)%nat then [] else [Run s l r (repeat (ch s) n)].
Proof. reflexivity. Qed.

(** Replacing an opener, a closer and what is between them by an element. *)
Lemma reduce_ok pre b1 s lo ro p mid lc q b2 ss post : 
  fl pre (b1 ++ Run s true ro (repeat (ch s) p) :: mid ++ Run s lc true (repeat (ch s) q) :: b2) ss post ->
  adj (b1 ++ Run s true ro (repeat (ch s) p) :: mid ++ Run s lc true (repeat (ch s) q) :: b2) ->
  (1 <= p)%nat -> (1 <= q)%nat -> lo = true ->
  let kids := convertToInlineElems mid in
  let n := Nat.min (Nat.min p q) 2 in
  let elem := if (2 <=? Nat.min p q)%nat then Strong kids else Emphasis kids in
  let new := b1 ++ (if (p - n =? 0)%nat then [] else [Run s true ro (repeat (ch s) (p - n))]) ++ InlineElem elem ::
    (if (q - n =? 0)%nat then [] else [Run s lc true (repeat (ch s) (q - n))]) ++ b2 in
  (exists ss', fl pre new ss' post /\ concat ss' = concat ss) /\ adj new.
Proof.
  intros H A Hp Hq _ kids n elem new. split.
  - destruct (fl_split b1 pre _ _ _ H) as (s1 & sr & -> & F1 & F2 & _). inversion F2 as [|? ? ? so sr2 ? Do Lo Ro F3]; subst.
    destruct (fl_split mid _ _ _ _ F3) as (sm & sr3 & -> & F4 & F5 & Lm). inversion F5 as [|? ? ? sc s2 ? Dc Lc Rc F6]; subst.
    inversion Do; subst. inversion Dc; subst.
    match goal with E : repeat (ch s) _ = repeat (ch s) p |- _ => apply (f_equal (@List.length Z)) in E; rewrite !repeat_length in E; subst end.
    match goal with E : repeat (ch s) _ = repeat (ch s) q |- _ => apply (f_equal (@List.length Z)) in E; rewrite !repeat_length in E; subst end.
    specialize (Lo eq_refl). specialize (Rc eq_refl).
    assert (Hm : mid <> []). { intros ->. apply adj_app in A. destruct A as [_ A]. cbn in A. destruct A as [A _]. destruct s; discriminate. }
    assert (Hsm : concat sm <> []). { destruct mid as [|d mid]; [congruence|]. inversion F4; subst. cbn. intros E. apply app_eq_nil in E. eapply D_ne; [eassumption|apply E]. }
    assert (Hug : hugs (concat sm)).
    { rewrite concat_app, <- app_assoc in Lo. apply starts_app in Lo; [|exact Hsm]. apply ends_app in Rc; [|exact Hsm].
      destruct Lo as (c & C1 & C2). destruct Rc as (d & D1 & D2). exists c, d. auto. }
    pose proof (convert_ok _ _ _ _ F4) as K.
    assert (Hn : (1 <= n <= 2)%nat) by (unfold n; lia). assert (Hnp : (n <= p)%nat) by (unfold n; lia). assert (Hnq : (n <= q)%nat) by (unfold n; lia).
    set (sel := repeat (ch s) n ++ concat sm ++ repeat (ch s) n).
    assert (Se : says elem sel).
    { unfold sel, elem. assert (C : ch s = 42 \/ ch s = 95) by (destruct s; auto). destruct (Nat.leb_spec 2 (Nat.min p q)).
      - replace n with 2%nat by (unfold n; lia). cbn [repeat]. apply says_strong; assumption.
      - replace n with 1%nat by (unfold n; lia). cbn [repeat]. apply says_em; assumption. }
    set (sp := if (p - n =? 0)%nat then [] else [repeat (ch s) (p - n)]). set (sq := if (q - n =? 0)%nat then [] else [repeat (ch s) (q - n)]).
    assert (Cp : concat sp = repeat (ch s) (p - n)). { unfold sp. destruct (Nat.eqb_spec (p - n) 0) as [->|]; [reflexivity|]. cbn. apply app_nil_r. }
    assert (Cq : concat sq = repeat (ch s) (q - n)). { unfold sq. destruct (Nat.eqb_spec (q - n) 0) as [->|]; [reflexivity|]. cbn. apply app_nil_r. }
    assert (Sp : repeat (ch s) p = repeat (ch s) (p - n) ++ repeat (ch s) n) by (rewrite <- rep_add; f_equal; lia).
    assert (Sq : repeat (ch s) q = repeat (ch s) n ++ repeat (ch s) (q - n)) by (rewrite <- rep_add; f_equal; lia).
    assert (Tot : concat (sp ++ sel :: sq ++ s2) = concat (repeat (ch s) p :: sm ++ repeat (ch s) q :: s2)).
    { rewrite concat_app. cbn [concat]. rewrite !concat_app. cbn [concat]. rewrite Cp, Cq, Sp, Sq. unfold sel. rewrite <- !app_assoc. reflexivity. }
    exists (s1 ++ sp ++ sel :: sq ++ s2). split; [|rewrite !concat_app, <- Tot, concat_app; reflexivity].
    unfold new. apply fl_app; [rewrite Tot; exact F1|].
    assert (W : ~ white (ch s)) by (unfold white; destruct s; cbn; lia).
    assert (Sst : forall x, starts (sel ++ x)). { intros x. exists (ch s). split; [|exact W]. unfold sel. destruct n; [lia|]. reflexivity. }
    assert (Sen : forall x, ends (x ++ sel)).
    { intros x. exists (ch s). split; [|exact W]. unfold sel. destruct n as [|n']; [lia|]. rewrite rep_snoc. rewrite !app_assoc. apply last_snoc. }
    apply fl_app.
    + unfold sp. destruct (Nat.eqb_spec (p - n) 0); [constructor|]. constructor; [constructor; lia| |exact Ro|constructor].
      intros _. cbn [concat app]. rewrite <- app_assoc. apply Sst.
    + constructor; [constructor; exact Se|discriminate|discriminate|]. rewrite Cp. apply fl_app.
      * unfold sq. destruct (Nat.eqb_spec (q - n) 0); [constructor|]. constructor; [constructor; lia| | |constructor].
        -- intros L. specialize (Lc L). exact Lc.
        -- intros _. apply Sen.
      * rewrite Cq. match goal with F : fl ?x b2 s2 post |- fl ?y b2 s2 post => replace y with x; [exact F|] end.
        rewrite Sp, Sq. unfold sel. rewrite <- !app_assoc. reflexivity.
  - unfold new. apply adj_app in A. destruct A as [A1 A2]. apply (adj_skip [Run s true ro (repeat (ch s) p)]) in A2. cbn [app] in A2.
    apply adj_app in A2. destruct A2 as [_ A2].
    assert (Ae : adj (InlineElem elem :: (if (q - n =? 0)%nat then [] else [Run s lc true (repeat (ch s) (q - n))]) ++ b2)).
    { destruct (q - n =? 0)%nat; cbn [app].
      - apply (adj_skip [_]) in A2. cbn [app] in A2. destruct b2; split; try reflexivity; exact A2.
      - split; [reflexivity|]. destruct b2 as [|x b2]; [split; exact I|]. destruct A2 as [A2 A3]. split; [destruct x; exact A2|exact A3]. }
    destruct (p - n =? 0)%nat; cbn [app].
    + apply adj_app. split; [|exact Ae]. apply adj_snoc; [intros []; reflexivity|]. apply adj_firstn in A1. exact A1.
    + apply adj_app. split; [|cbn; split; [reflexivity|exact Ae]]. eapply adj_last; [|exact A1]. intros [] K; exact K || reflexivity.
Qed.

Lemma nth_fl pre ds : forall ss post i d, fl pre ds ss post -> nth_error ds i = Some d -> exists s, D d s.
Proof.
  intros ss post i d H. revert i. induction H as [|pre d0 ds s ss post HD H2 H3 H4 IH]; intros [|i] E; try discriminate; [injection E as ->; eauto|].
  apply (IH i E).
Qed.
Lemma shorten_rep n s l r p : shorten n (Run s l r (repeat (ch s) p)) = Run s l r (repeat (ch s) (p - n)).
Proof. cbn [shorten]. rewrite repeat_length, firstn_rep. f_equal. f_equal. lia. Qed.

Lemma skipn_exact {A} n (l r : list A) : n = length l -> skipn n (l ++ r) = r.
Proof. intros ->. rewrite skipn_app, skipn_all, Nat.sub_diag. reflexivity. Qed.
Lemma emphLoop_spec fuel : forall a b ss pre post pos so uo, fl pre b ss post -> adj b -> (length a <= pos)%nat -> (length a <= so)%nat -> (length a <= uo)%nat ->
  (length (a ++ b) - pos + runs b < fuel)%nat ->
  exists b' ss', emphLoop fuel (a ++ b) pos so uo = Some (a ++ b') /\ fl pre b' ss' post /\ concat ss' = concat ss.
Proof.
  induction fuel as [|fuel IH]; intros a b ss pre post pos so uo F A Hp Hs Hu Hf; [lia|]. cbn [emphLoop].
  destruct (nth_error (a ++ b) pos) as [d|] eqn:E; [|exists b, ss; auto].
  assert (Lp : (pos < length (a ++ b))%nat) by (apply nth_error_Some; congruence).
  assert (Next : forall so' uo', (length a <= so')%nat -> (length a <= uo')%nat ->
    exists b' ss', emphLoop fuel (a ++ b) (S pos) so' uo' = Some (a ++ b') /\ fl pre b' ss' post /\ concat ss' = concat ss).
  { intros so' uo' Hs' Hu'. apply IH; try assumption; lia. }
  rewrite nth_error_app2 in E by exact Hp.
  destruct d as [t|stars l [|] t|t|e]; try (apply Next; assumption).
  destruct (findOpener (a ++ b) stars (if stars then so else uo) pos) as [j|] eqn:Fo.
  2:{ destruct stars; apply Next; lia. }
  apply findOpener_spec in Fo. destruct Fo as (Hj & ro & u & Ej). rewrite Ej. cbn [runText].
  assert (Hlj : (length a <= j)%nat) by (destruct stars; lia). rewrite nth_error_app2 in Ej by exact Hlj.
  destruct (nth_fl _ _ _ _ _ _ F E) as (x & Dx). inversion Dx as [| |? ? ? q Hq|]; subst.
  destruct (nth_fl _ _ _ _ _ _ F Ej) as (x & Dy). inversion Dy as [| |? ? ? p Hpp|]; subst.
  rewrite !repeat_length. destruct (Nat.eqb_spec (Nat.min p q) 0) as [Z0|_]; [lia|].
  destruct (nth_error_split _ _ E) as (bb & b2 & Eb & Lbb). subst b.
  rewrite nth_error_app1 in Ej by lia. destruct (nth_error_split _ _ Ej) as (b1 & mid & Ebb & Lb1). subst bb.
  rewrite app_length in Lbb. cbn [length] in Lbb. rewrite <- app_assoc in *. cbn [app] in *.
  assert (Q1 : firstn j (a ++ b1 ++ Run stars true ro (repeat (ch stars) p) :: mid ++ Run stars l true (repeat (ch stars) q) :: b2) = a ++ b1).
  { rewrite app_assoc. rewrite firstn_app. replace (j - length (a ++ b1))%nat with 0%nat by (rewrite app_length; lia). rewrite firstn_O, app_nil_r. apply firstn_all2. rewrite app_length. lia. }
  assert (Q2 : skipn (S j) (a ++ b1 ++ Run stars true ro (repeat (ch stars) p) :: mid ++ Run stars l true (repeat (ch stars) q) :: b2) = mid ++ Run stars l true (repeat (ch stars) q) :: b2).
  { rewrite app_assoc. rewrite skipn_app. rewrite skipn_all2 by (rewrite app_length; lia). replace (S j - length (a ++ b1))%nat with 1%nat by (rewrite app_length; lia). reflexivity. }
  assert (Q3 : skipn (S pos) (a ++ b1 ++ Run stars true ro (repeat (ch stars) p) :: mid ++ Run stars l true (repeat (ch stars) q) :: b2) = b2).
  { replace (a ++ b1 ++ Run stars true ro (repeat (ch stars) p) :: mid ++ Run stars l true (repeat (ch stars) q) :: b2)
      with ((a ++ b1 ++ Run stars true ro (repeat (ch stars) p) :: mid ++ [Run stars l true (repeat (ch stars) q)]) ++ b2) by (repeat (rewrite <- app_assoc; cbn [app]); reflexivity).
    apply skipn_exact. rewrite !app_length. cbn [length]. rewrite app_length. cbn [length]. lia. }
  rewrite Q1, Q2, Q3. replace (pos - j - 1)%nat with (length mid) by lia.
  rewrite firstn_app, firstn_all, Nat.sub_diag, firstn_O, app_nil_r. rewrite !shorten_rep.
  destruct (reduce_ok pre b1 stars true ro p mid l q b2 ss post F A Hpp Hq eq_refl) as [(ss2 & F2 & C2) A2].
  set (n := Nat.min (Nat.min p q) 2) in *. set (elem := if (2 <=? Nat.min p q)%nat then Strong (convertToInlineElems mid) else Emphasis (convertToInlineElems mid)) in *.
  set (o' := if (p - n =? 0)%nat then [] else [Run stars true ro (repeat (ch stars) (p - n))]) in *.
  set (c' := if (q - n =? 0)%nat then [] else [Run stars l true (repeat (ch stars) (q - n))]) in *.
  rewrite <- app_assoc.
  assert (Lo : (length o' <= 1)%nat) by (unfold o'; destruct (p - n =? 0)%nat; cbn; lia).
  assert (Lc : (length c' <= 1)%nat) by (unfold c'; destruct (q - n =? 0)%nat; cbn; lia).
  assert (Ro : runs o' = (p - n)%nat). { unfold o'. destruct (Nat.eqb_spec (p - n) 0) as [->|]; [reflexivity|]. rewrite runs_cons. cbn [runLen]. rewrite repeat_length. unfold runs. cbn. lia. }
  assert (Rc : runs c' = (q - n)%nat). { unfold c'. destruct (Nat.eqb_spec (q - n) 0) as [->|]; [reflexivity|]. rewrite runs_cons. cbn [runLen]. rewrite repeat_length. unfold runs. cbn. lia. }
  destruct (IH a (b1 ++ o' ++ InlineElem elem :: c' ++ b2) ss2 pre post (S (j + length o')) (Nat.min so (S (j + length o'))) (Nat.min (Nat.min so (S (j + length o'))) (S (j + length o')))) as (b' & ss' & E1 & F1 & C1); try assumption.
  - lia.
  - lia.
  - lia.
  - assert (n = 1 \/ n = 2)%nat by (unfold n; lia). assert (n <= p /\ n <= q)%nat by (unfold n; lia).
    repeat rewrite ?app_length, ?runs_app, ?runs_cons in Hf. repeat rewrite ?app_length, ?runs_app, ?runs_cons. cbn [length runLen] in *. repeat rewrite ?app_length, ?runs_app, ?runs_cons, ?repeat_length in Hf. repeat rewrite ?app_length, ?runs_app, ?runs_cons. cbn [length runLen] in *. rewrite ?repeat_length in Hf. repeat rewrite ?app_length in Hf. cbn [length] in Hf. lia.
  - exists b', ss'. split; [exact E1|]. split; [exact F1|]. congruence.
Qed.

Lemma fuel_ok ds : (length ds + runs ds < emphFuel ds)%nat.
Proof.
  unfold emphFuel, runs. assert (length ds + list_sum (map runLen ds) <= list_sum (map weight ds))%nat; [|lia].
  induction ds as [|d ds IH]; [cbn; lia|]. unfold list_sum in *. cbn [map fold_right length]. destruct d; cbn [runLen weight] in *; lia.
Qed.
Lemma emphasis_ok a b ss pre post : fl pre b ss post -> adj b ->
  exists els, processEmphasis (a ++ b) (length a) = Some (els, a) /\ saysAll els (concat ss).
Proof.
  intros F A. unfold processEmphasis.
  destruct (emphLoop_spec (emphFuel (a ++ b)) a b ss pre post (length a) (length a) (length a) F A) as (b' & ss' & E & F' & C); try lia.
  - pose proof (fuel_ok (a ++ b)) as H. rewrite runs_app in H. lia.
  - rewrite E; cbv beta iota. rewrite skipn_app, skipn_all, Nat.sub_diag, firstn_app, firstn_all, Nat.sub_diag, firstn_O, app_nil_r. cbn [skipn app].
    exists (convertToInlineElems b'). split; [reflexivity|]. rewrite <- C. eapply convert_ok. exact F'.
Qed.

Lemma rfindOpen_spec ds : forall i f r, rfindOpen ds i f = Some r -> (forall x, f = Some x -> (x < i)%nat) ->
  f = Some r \/ exists a t b, ds = a ++ OpenLink t :: b /\ r = (i + length a)%nat.
Proof.
  induction ds as [|d ds IH]; intros i f r H Hf; [left; exact H|]. cbn [rfindOpen] in H.
  destruct (IH _ _ _ H) as [K|(a & t & b & -> & ->)].
  - intros x K. destruct d; try (apply Hf in K; lia). injection K as <-. lia.
  - destruct d; try (left; exact K). injection K as <-. right. exists [], t, ds. split; [reflexivity|cbn; lia].
  - right. exists (d :: a), t, b. split; [reflexivity|cbn; lia].
Qed.

(* ---- the loop ---- *)
Definition pend (k : ic) (flushed : nat) : list Z := skipn flushed (before k).
Record inv (k : ic) (flushed : nat) (ds : list delim) (ss : list (list Z)) (full : list Z) : Prop := {
  i_ok : ok k;
  i_len : (flushed <= length (before k))%nat;
  i_fl : fl [] ds ss (pend k flushed ++ restText k);
  i_full : concat ss ++ pend k flushed ++ restText k = full;
  i_adj : adj ds;
  i_pre : exists y, concat ss ++ pend k flushed = y ++ before k;
  i_last : forall a s l r t, ds = a ++ [Run s l r t] -> pend k flushed = [] -> hd_error (after k) <> Some (ch s) }.

Lemma pend_all k : pend k (length (before k)) = [].
Proof. unfold pend. apply skipn_all. Qed.
Lemma not_run {A} (a b : list A) x y : a ++ [x] = b ++ [y] -> x = y.
Proof. intros H. apply app_inj_tail in H. apply H. Qed.

Lemma inv_flush k f ds ss full : inv k f ds ss full -> exists ds2 ss2, flushText k f ds = (length (before k), ds2) /\ inv k (length (before k)) ds2 ss2 full.
Proof.
  intros [O L F T A P Q]. unfold flushText. destruct (Nat.ltb_spec f (length (before k))) as [H|H].
  - exists (ds ++ [RawText (pend k f)]), (ss ++ [pend k f]). split; [reflexivity|].
    assert (N : pend k f <> []). { unfold pend. intros E. apply (f_equal (@List.length Z)) in E. rewrite skipn_length in E. cbn in E. lia. }
    constructor; rewrite ?pend_all; cbn [app]; try assumption; try lia.
    + apply fl_app; [cbn [concat]; rewrite app_nil_r; exact F|]. constructor; [|discriminate|discriminate|constructor].
      constructor; [exact N|]. destruct O as (K & _). unfold pend. intros I. apply K. rewrite <- (firstn_skipn f (before k)). apply in_app_iff. auto.
    + rewrite concat_app. cbn [concat]. rewrite app_nil_r, <- app_assoc. exact T.
    + apply adj_snoc; [intros []; reflexivity|exact A].
    + rewrite concat_app. cbn [concat]. rewrite !app_nil_r. exact P.
    + intros a s l r t E. apply not_run in E. discriminate.
  - assert (f = length (before k)) by lia. subst f. exists ds, ss. split; [reflexivity|]. constructor; assumption.
Qed.
Lemma inv_advance k f ds ss full t r : inv k f ds ss full -> after k = t ++ r -> t <> [] -> inv (step k t r) f ds ss full.
Proof.
  intros [O L F T A P Q] E N. assert (Pe : pend (step k t r) f = pend k f ++ t).
  { unfold pend, step. cbn [before]. rewrite skipn_app. replace (f - length (before k))%nat with 0%nat by lia. reflexivity. }
  assert (R : pend (step k t r) f ++ restText (step k t r) = pend k f ++ restText k).
  { rewrite Pe, <- app_assoc. f_equal. symmetry. apply moves_step. exact E. }
  constructor; rewrite ?R; try assumption.
  - apply ok_step; assumption.
  - cbn [step before]. rewrite app_length. lia.
  - destruct P as [y P]. exists y. rewrite Pe. cbn [step before]. rewrite !app_assoc, P. reflexivity.
  - intros a s l r0 t0 _ K. rewrite Pe in K. apply app_eq_nil in K. destruct K. congruence.
Qed.
Lemma inv_push k ds ss full t k2 d : inv k (length (before k)) ds ss full -> moves k t k2 -> ok k2 -> D d t ->
  (isLeft d = true -> starts (restText k2)) -> (isRight d = true -> ends (concat ss)) -> adj (ds ++ [d]) ->
  (forall s l r u, d = Run s l r u -> hd_error (after k2) <> Some (ch s)) ->
  inv k2 (length (before k2)) (ds ++ [d]) (ss ++ [t]) full.
Proof.
  intros [O L F T A P Q] M O2 Hd Hl Hr Ha Hq. rewrite pend_all in *. cbn [app] in *. destruct M as [M1 [y M2]].
  constructor; rewrite ?pend_all; cbn [app]; try assumption; try lia.
  - apply fl_app; [cbn [concat]; rewrite app_nil_r, <- M1; exact F|]. constructor; [exact Hd|exact Hl|exact Hr|constructor].
  - rewrite concat_app. cbn [concat]. rewrite app_nil_r, <- app_assoc, <- M1. exact T.
  - destruct P as [z P]. exists (z ++ y). rewrite concat_app. cbn [concat]. rewrite app_nil_r in *. rewrite app_nil_r, P, <- app_assoc, M2, app_assoc. reflexivity.
  - intros a s l r u E _. apply not_run in E. subst d. eapply Hq. reflexivity.
Qed.

Lemma run_left s pre t post : isLeft (makeRun s pre t post) = true -> forall x, starts (post ++ x).
Proof.
  unfold makeRun. cbn [isLeft]. intros H x. apply andb_true_iff in H. destruct H as [H _]. destruct post as [|c post]; [discriminate|].
  exists c. split; [reflexivity|]. apply white_not. destruct (isWhite c); [discriminate|reflexivity].
Qed.
Lemma run_right s pre t post : isRight (makeRun s pre t post) = true -> forall x, ends (x ++ pre).
Proof.
  unfold makeRun. cbn [isRight]. intros H x. apply andb_true_iff in H. destruct H as [H _]. unfold ends. rewrite rev_app_distr. destruct (rev pre) as [|c p]; [discriminate|].
  exists c. split; [reflexivity|]. apply white_not. destruct (isWhite c); [discriminate|reflexivity].
Qed.

Lemma expandLoop_spec fuel : forall k f ds ss full, inv k f ds ss full -> (length (restText k) < fuel)%nat ->
  exists els, expandLoop fuel k f ds = Some els /\ saysAll els full.
Proof.
  induction fuel as [|fuel IH]; intros k f ds ss full Iv Hf; [lia|]. cbn [expandLoop].
  assert (G : forall k f ds ss, inv k f ds ss full -> (length (restText k) <= fuel)%nat -> after k <> [] -> exists els, expandStep (expandLoop fuel) k f ds = Some els /\ saysAll els full).
  { clear k f ds ss Iv Hf. intros k f ds ss Iv Hf Hne. unfold expandStep. destruct (after k) as [|c r] eqn:E; [congruence|].
    pose proof (i_ok _ _ _ _ _ Iv) as O.
    destruct (Z.eqb_spec c 96) as [->|N96].
    { destruct (inv_flush _ _ _ _ _ Iv) as (ds1 & ss1 & -> & I1). clear Iv ds ss f.
      pose proof (span_spec (fun c => c =? 96) r) as S. destruct (span (fun c => c =? 96) r) as [ticks r2]. destruct S as (S1 & S2 & S3).
      assert (E2 : after k = (96 :: ticks) ++ r2) by (rewrite E, S1; reflexivity).
      assert (T : 96 :: ticks = repeat 96 (length (96 :: ticks))) by (apply (ticks_rep (96 :: ticks)); constructor; [reflexivity|exact S2]).
      pose proof (moves_step k (96 :: ticks) r2 E2) as M. pose proof (ok_step k _ _ O E2) as O1. pose proof (moves_len _ _ _ M) as L. 
      set (k1 := step k (96 :: ticks) r2) in *. assert (L1 : (length (restText k1) < fuel)%nat) by (cbn [length] in L; lia).
      destruct (codeSpan_spec (length (96 :: ticks)) (S (left_ k1)) ltac:(cbn; lia) k1 [] O1) as (res & R1 & R2).
      - rewrite left_rest. lia.
      - apply noRun_nil. cbn; lia.
      - discriminate.
      - intros _ K. unfold k1 in K. cbn [step after] in K. specialize (S3 _ K). discriminate.
      - cbn [map] in R1. rewrite R1. destruct res as [[t k2]|].
        + destruct R2 as (more & M2 & O2 & C1 & C2 & C3). cbn [app] in C1, C2. pose proof (moves_len _ _ _ M2) as L2.
          assert (I2 : inv k2 (length (before k2)) (ds1 ++ [InlineElem (CodeSpan t)]) (ss1 ++ [(96 :: ticks) ++ more ++ repeat 96 (length (96 :: ticks))]) full).
          { eapply inv_push; [exact I1|exact (moves_trans _ _ _ _ _ M M2)|exact O2| |discriminate|discriminate| |discriminate].
            - constructor. rewrite T at 1. constructor; [cbn; lia|exact C1|exact C2].
            - apply adj_snoc; [intros []; reflexivity|apply I1]. }
          eapply IH; [exact I2|lia].
        + assert (I2 : inv k1 (length (before k)) ds1 ss1 full) by (apply inv_advance; [exact I1|exact E2|discriminate]).
          destruct (inv_flush _ _ _ _ _ I2) as (ds2 & ss2 & -> & I3). eapply IH; [exact I3|lia]. }
    destruct ((c =? 42) || (c =? 95)) eqn:Hc.
    { destruct (inv_flush _ _ _ _ _ Iv) as (ds1 & ss1 & -> & I1). clear Iv ds ss f.
      pose proof (span_spec (fun d => d =? c) r) as S. destruct (span (fun d => d =? c) r) as [run r2]. destruct S as (S1 & S2 & S3).
      assert (E2 : after k = (c :: run) ++ r2) by (rewrite E, S1; reflexivity).
      assert (Cc : c = ch (c =? 42)). { unfold ch. destruct (Z.eqb_spec c 42); [assumption|]. destruct (Z.eqb_spec c 95); [assumption|discriminate]. }
      assert (T : c :: run = repeat (ch (c =? 42)) (length (c :: run))).
      { rewrite <- Cc. apply (all_rep c (c :: run)). constructor; [reflexivity|]. eapply Forall_impl; [|exact S2]. cbn. lia. }
      pose proof (moves_step k (c :: run) r2 E2) as M. pose proof (ok_step k _ _ O E2) as O1. pose proof (moves_len _ _ _ M) as L.
      cbv zeta. set (k1 := step k (c :: run) r2) in *. assert (L1 : (length (restText k1) < fuel)%nat) by (cbn [length] in L; lia).
      assert (I2 : inv k1 (length (before k1)) (ds1 ++ [makeRun (c =? 42) (before k) (c :: run) r2]) (ss1 ++ [c :: run]) full).
      { eapply inv_push; [exact I1|exact M|exact O1|..].
        - unfold makeRun. rewrite T. apply D_run. cbn; lia.
        - intros H. apply (run_left _ _ _ _ H).
        - intros H. destruct (i_pre _ _ _ _ _ I1) as [y P]. rewrite pend_all, app_nil_r in P. rewrite P. apply (run_right _ _ _ _ H).
        - destruct (rev ds1) as [|x rd] eqn:Rd.
          + apply (f_equal (@rev _)) in Rd. rewrite rev_involutive in Rd. cbn in Rd. subst ds1. cbn. auto.
          + apply (f_equal (@rev _)) in Rd. rewrite rev_involutive in Rd. cbn in Rd. subst ds1. rewrite <- app_assoc. cbn [app]. apply adj_app.
            split; [apply I1|]. cbn. repeat split; try exact I. destruct x as [u|s0 l0 r0 u|u|e]; try reflexivity. cbn [same makeRun]. unfold makeRun.
            destruct (Bool.eqb s0 (c =? 42)) eqn:B; [|reflexivity]. exfalso. apply Bool.eqb_prop in B. subst s0.
            apply (i_last _ _ _ _ _ I1 _ _ _ _ _ eq_refl (pend_all k)). rewrite E. cbn [hd_error]. congruence.
        - intros s0 l0 r0 u Eq K. unfold makeRun in Eq. injection Eq as <- _ _ _. unfold k1 in K. cbn [step after] in K. specialize (S3 _ K). cbn in S3. rewrite <- Cc in S3. lia. }
      eapply IH; [exact I2|exact L1]. }
    destruct (Z.eqb_spec c 91) as [->|N91].
    { destruct (inv_flush _ _ _ _ _ Iv) as (ds1 & ss1 & -> & I1). clear Iv ds ss f. cbv zeta.
      pose proof (moves_step k [91] r E) as M. pose proof (ok_step k [91] r O E) as O1. pose proof (moves_len _ _ _ M) as L. cbn [length] in L.
      assert (I2 : inv (step k [91] r) (length (before (step k [91] r))) (ds1 ++ [OpenLink [91]]) (ss1 ++ [[91]]) full).
      { eapply inv_push; [exact I1|exact M|exact O1|constructor|discriminate|discriminate| |discriminate]. apply adj_snoc; [intros []; reflexivity|apply I1]. }
      eapply IH; [exact I2|lia]. }
    destruct (Z.eqb_spec c 93) as [->|N93].
    { destruct (inv_flush _ _ _ _ _ Iv) as (ds1 & ss1 & -> & I1). clear Iv ds ss f. cbv zeta.
      assert (A1 : inv (step k [93] r) (length (before k)) ds1 ss1 full) by (apply inv_advance; [exact I1|exact E|discriminate]).
      pose proof (moves_len _ _ _ (moves_step k [93] r E)) as L1. cbn [length] in L1.
      destruct r as [|d r]; [eapply IH; [exact A1|lia]|].
      destruct (Z.eqb_spec d 40) as [->|N40]; [|eapply IH; [exact A1|lia]].
      assert (Es : after (step k [93] (40 :: r)) = [40] ++ r) by reflexivity.
      pose proof (inv_advance _ _ _ _ _ _ _ A1 Es ltac:(discriminate)) as A2. set (k2 := step (step k [93] (40 :: r)) [40] r) in *.
      pose proof (moves_len _ _ _ (moves_step _ [40] r Es)) as L2. fold k2 in L2. cbn [length] in L2.
      destruct (rfindOpen ds1 0 None) as [ol|] eqn:Ro; [|eapply IH; [exact A2|lia]].
      pose proof (i_ok _ _ _ _ _ A2) as O2. destruct (linkDest_spec k2 O2) as (res & -> & Rl). destruct res as [[dest k3]|]; [|eapply IH; [exact A2|lia]].
      destruct Rl as (w1 & raw & w2 & M & W1 & W2 & Dt & Din & O3). pose proof (moves_len _ _ _ M) as L3.
      destruct (rfindOpen_spec _ _ _ _ Ro ltac:(discriminate)) as [K|(a & t & b & -> & ->)]; [discriminate|]. cbn [Nat.add].
      destruct A2 as [_ Ln F T Ad Pr _].
      destruct (fl_split a _ _ _ _ F) as (sa & sr & -> & Fa & Fr & _). inversion Fr as [|? ? ? so sb ? Do _ _ Fb]; subst. inversion Do; subst. cbn [app] in Fb.
      assert (Adb : adj b) by (apply adj_app in Ad; destruct Ad as [_ Ad]; apply (adj_skip [_]) in Ad; exact Ad).
      assert (Ada : adj a) by (apply adj_firstn in Ad; exact Ad).
      destruct (emphasis_ok (a ++ [OpenLink [91]]) b sb _ _ Fb Adb) as (kids & Ek & Sk).
      replace (length (a ++ [OpenLink [91]])) with (S (length a)) in Ek by (rewrite app_length; cbn; lia). rewrite <- app_assoc in Ek. cbn [app] in Ek. rewrite Ek.
      rewrite firstn_app, firstn_all, Nat.sub_diag, firstn_O, app_nil_r.
      assert (Pk : pend k2 (length (before k)) = [93; 40]). { unfold k2, pend, step. cbn [before]. rewrite <- app_assoc, skipn_app, skipn_all, Nat.sub_diag. reflexivity. }
      rewrite Pk in *. destruct M as [M1 [y M2]].
      set (src := [91] ++ concat sb ++ [93; 40] ++ w1 ++ raw ++ w2 ++ [41]).
      assert (Sr : concat ([91] :: sb) ++ [93; 40] ++ restText k2 = src ++ restText k3). { cbn [concat]. rewrite M1. unfold src. rewrite <- !app_assoc. reflexivity. }
      assert (I3 : inv k3 (length (before k3)) (a ++ [InlineElem (Link dest kids)]) (sa ++ [src]) (concat (sa ++ [91] :: sb) ++ [93; 40] ++ restText k2)).
      { constructor; rewrite ?pend_all; cbn [app]; try assumption; try lia.
        - apply fl_app; [|constructor; [constructor; constructor; assumption|discriminate|discriminate|constructor]].
          cbn [concat]. rewrite app_nil_r, <- Sr. exact Fa.
        - rewrite !concat_app. cbn [concat app] in *. rewrite app_nil_r, <- !app_assoc. f_equal. rewrite <- Sr. reflexivity.
        - apply adj_snoc; [intros []; reflexivity|exact Ada].
        - destruct Pr as [z P]. exists (z ++ y). rewrite !concat_app in *. cbn [concat] in *. rewrite !app_nil_r. rewrite <- (app_assoc z), <- M2, (app_assoc z), <- P. unfold src. rewrite <- !app_assoc. reflexivity.
        - intros a0 s0 l0 r0 t0 Eq. apply not_run in Eq. discriminate. }
      eapply IH; [exact I3|]. lia. }
    pose proof (moves_len _ _ _ (moves_step k [c] r E)) as L1. cbn [length] in L1.
    eapply IH; [apply inv_advance; [exact Iv|exact E|discriminate]|lia]. }
  destruct (after k) as [|c r] eqn:E.
  - destruct (inv_flush _ _ _ _ _ Iv) as (ds1 & ss1 & -> & I1). pose proof (i_ok _ _ _ _ _ Iv) as O.
    destruct (later k) as [|l ls] eqn:El.
    + destruct I1 as [_ _ F T A _ _]. rewrite pend_all in *. cbn [app] in *. assert (R : restText k = []) by (unfold restText; rewrite E, El; reflexivity). rewrite R in *. rewrite app_nil_r in T.
      destruct (emphasis_ok [] ds1 ss1 _ _ F A) as (els & E1 & S1). cbn [app length] in E1. rewrite E1. exists els. split; [reflexivity|]. rewrite <- T. exact S1.
    + destruct (valid_spec k O) as [(c & r & E2 & _)|[[E2 _]|(k2 & _ & V & M & O2 & Ne & B)]]; [congruence|unfold restText in E2; rewrite E, El in E2; discriminate|].
      unfold validIndex in V. rewrite E, El in V. destruct l as [|c l]; [discriminate|]. injection V as <-. pose proof (moves_len _ _ _ M) as L. cbn [length] in L.
      apply (G _ _ _ (ss1 ++ [[10]])); [|lia|discriminate].
      apply (inv_push _ _ _ _ _ (mkic [] (c :: l) ls) _ I1 M O2); [constructor; constructor|discriminate|discriminate| |discriminate]. apply adj_snoc; [intros []; reflexivity|apply I1].
  - apply (G _ _ _ ss); [exact Iv|lia|congruence].
Qed.

Lemma joined_rest l ls : restText (mkic [] l ls) = joined (l :: ls).
Proof.
  unfold restText. cbn [after later]. revert l. induction ls as [|m ls IH]; intros l; [cbn; apply app_nil_r|].
  change (joined (l :: m :: ls)) with (l ++ [10] ++ joined (m :: ls)). rewrite <- IH. reflexivity.
Qed.
Theorem inline_ok lines : lines <> [] -> Forall lineOk lines -> exists els, expandInlineElements lines = Some els /\ saysAll els (joined lines).
Proof.
  intros N H. destruct lines as [|l ls]; [congruence|]. inversion H as [|? ? [Hl Hn] Hls]; subst.
  assert (I : inv (mkic [] l ls) 0 [] [] (joined (l :: ls))).
  { constructor; cbn [before after later concat app pend].
    - repeat split; [intros []|exact Hn|exact Hls].
    - cbn; lia.
    - constructor.
    - apply joined_rest.
    - exact I.
    - exists []. reflexivity.
    - intros a s l0 r t E. destruct a; discriminate. }
  destruct (expandLoop_spec (S (left_ (mkic [] l ls))) _ _ _ _ _ I) as (els & E & S); [rewrite left_rest; lia|].
  exists els. split; [|exact S]. unfold expandInlineElements. destruct l; [congruence|]. exact E.
Qed.
