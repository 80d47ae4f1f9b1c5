(* Proofs about reading ahead, going back and skipping in the C++ parser. *)
From Coq Require Import Lia ZifyBool ZifyNat.
From Verif Require Import CppTokModel CppSkipModel CppSkipSpec.
Local Open Scope list_scope.
Local Open Scope Z_scope.

Lemma ttypeEqb_eq a b : ttypeEqb a b = true <-> a = b.
Proof. unfold ttypeEqb. destruct (ttype_eq_dec a b); split; congruence. Qed.
Lemma ttypeEqb_neq a b : a <> b -> ttypeEqb a b = false.
Proof. unfold ttypeEqb. destruct (ttype_eq_dec a b); congruence. Qed.
Lemma tokenEqb_refl t : tokenEqb t t = true.
Proof.
  unfold tokenEqb. rewrite (proj2 (ttypeEqb_eq _ _) eq_refl). unfold bytesEqb.
  destruct (list_eq_dec Z.eq_dec (tokText t) (tokText t)); [|congruence]. now destruct (tokType t).
Qed.
Lemma aside_iff t : isAside (tokType t) = true <-> aside t.
Proof. unfold aside. destruct (tokType t); cbn; split; try discriminate; try tauto; intros [X|[X|[X|[X|[]]]]]; discriminate. Qed.

Section Proofs.
Context {S : Type} (next : bool -> S -> option (token * S)).
Notation parser := (parser S).

Definition up (p : parser) : upcoming := (skipn (pPos p) (pQueue p), pSrc p).
Definition good (p : parser) : Prop := (pRestore p = false -> pPos p = 0%nat) /\ (pPos p <= length (pQueue p))%nat.
(** Everything but what is to come, the comments and the errors. *)
Definition same (p q : parser) : Prop :=
  pRestore p = pRestore q /\ pAccept p = pAccept q /\ pAngles p = pAngles q.
Definition quiet (p q : parser) : Prop := pErrors p = pErrors q /\ pMute p = pMute q /\ pReported p = pReported q.
Definition canPush (t : token) (p : parser) : Prop :=
  pRestore p = true -> exists n, pPos p = Datatypes.S n /\ nth_error (pQueue p) n = Some t.

Lemma same_refl p : same p p. Proof. repeat split. Qed.
Lemma same_trans p q r : same p q -> same q r -> same p r.
Proof. unfold same. intuition congruence. Qed.
Lemma quiet_trans p q r : quiet p q -> quiet q r -> quiet p r.
Proof. unfold quiet. intuition congruence. Qed.

Lemma skipn_nth (A : Type) n (l : list A) t : nth_error l n = Some t -> skipn n l = t :: skipn (Datatypes.S n) l.
Proof. revert l. induction n as [|n IH]; intros [|x l] H; cbn in *; try discriminate; [now injection H as ->|exact (IH l H)]. Qed.
Lemma skipn_none (A : Type) n (l : list A) : nth_error l n = None -> skipn n l = [].
Proof. intros H. apply nth_error_None in H. now apply skipn_all2. Qed.

Lemma readRaw_pull p t u : good p -> pullRaw next (pAngles p) (up p) t u ->
  exists q, readRaw next p = Some (t, q) /\ up q = u /\ good q /\ same p q /\ quiet p q /\ canPush t q /\ pSeen q = pSeen p /\
    (pRestore p = true -> pPos q = Datatypes.S (pPos p)) /\
    ((pQueue q = pQueue p /\ pSrc q = pSrc p /\ pRestore p = true) \/
     (pRestore p = false) \/
     (pQueue q = pQueue p ++ [t] /\ pPos p = length (pQueue p) /\ next (pAngles p) (pSrc p) = Some (t, pSrc q))).
Proof.
  intros [G1 G2] H. unfold readRaw. unfold up in H.
  destruct (nth_error (pQueue p) (pPos p)) as [t0|] eqn:N.
  - rewrite (skipn_nth _ _ _ _ N) in H. inversion H; subst. destruct (pRestore p) eqn:R.
    + eexists. split; [reflexivity|]. split; [reflexivity|]. split; [split; [discriminate|]|].
      { cbn. assert (nth_error (pQueue p) (pPos p) <> None) as X by congruence. apply nth_error_Some in X. lia. }
      split; [unfold same; cbn; auto|]. split; [unfold quiet; cbn; auto|].
      split; [intros _; exists (pPos p); split; [reflexivity|exact N]|]. split; [reflexivity|].
      split; [reflexivity|]. left. repeat split.
    + rewrite (G1 eq_refl) in *. eexists. split; [reflexivity|]. destruct (pQueue p) as [|x l] eqn:Q; [discriminate|].
      split; [reflexivity|]. split; [split; [reflexivity|cbn; lia]|]. split; [unfold same; cbn; auto|].
      split; [unfold quiet; cbn; auto|]. split; [intros X; cbn in X; discriminate|]. split; [reflexivity|]. split; [discriminate|]. right; left. reflexivity.
  - rewrite (skipn_none _ _ _ N) in H. inversion H as [|? ? ? E]; subst. rewrite E. apply nth_error_None in N.
    assert (L : pPos p = length (pQueue p)) by lia. destruct (pRestore p) eqn:R.
    + eexists. split; [reflexivity|]. split.
      { unfold up. cbn [pPos pQueue pSrc setQueue setSrc]. f_equal. apply skipn_all2. rewrite app_length. cbn. lia. }
      split; [split; [discriminate|cbn; rewrite app_length; cbn; lia]|]. split; [unfold same; cbn; auto|].
      split; [unfold quiet; cbn; auto|]. split.
      { intros _. exists (pPos p). split; [reflexivity|]. cbn. rewrite L, nth_error_app2, Nat.sub_diag by lia. reflexivity. }
      split; [reflexivity|]. split; [reflexivity|]. right; right. repeat split; auto.
    + eexists. split; [reflexivity|]. split; [unfold up; cbn; f_equal; now apply skipn_all2|].
      split; [split; [cbn; intros _; now apply G1|cbn; lia]|]. split; [unfold same; cbn; auto|].
      split; [unfold quiet; cbn; auto|]. split; [intros X; cbn in X; congruence|]. split; [reflexivity|]. split; [discriminate|]. right; left. reflexivity.
Qed.
Lemma read_mono : forall f p t q, read next f p = Some (t, q) -> forall f', (f <= f')%nat -> read next f' p = Some (t, q).
Proof.
  induction f as [|f IH]; intros p t q H f' L; [discriminate|]. destruct f' as [|f']; [lia|]. cbn [read] in *.
  destruct (readRaw next p) as [[t0 q0]|]; [|discriminate]. destruct (isAside (tokType t0)); [|exact H].
  apply (IH _ _ _ H). lia.
Qed.
Lemma read_pull p t u : good p -> pull next (pAngles p) (up p) t u ->
  exists n q, (forall f, (n <= f)%nat -> read next f p = Some (t, q)) /\
    up q = u /\ good q /\ same p q /\ quiet p q /\ canPush t q.
Proof.
  intros G H. remember (up p) as v eqn:Ev. revert p G Ev H. intros p G Ev H.
  assert (X : forall a, a = pAngles p -> pull next a v t u ->
    exists n q, (forall f, (n <= f)%nat -> read next f p = Some (t, q)) /\ up q = u /\ good q /\ same p q /\ quiet p q /\ canPush t q);
    [|exact (X _ eq_refl H)].
  clear H. intros a Ea H. revert p G Ev Ea. induction H as [v t u R NA|v t u1 t' u R A _ IH]; intros p G Ev Ea; subst.
  - destruct (readRaw_pull p t u G R) as (q & E & U & Gq & Sq & Qq & C & _). exists 1%nat, q.
    split; [|repeat split; try assumption; apply Sq || apply Qq || apply Gq]. intros f Hf. destruct f as [|f]; [lia|]. cbn [read]. rewrite E.
    rewrite <- aside_iff in NA. now destruct (isAside (tokType t)).
  - destruct (readRaw_pull p t u1 G R) as (q & E & U & Gq & Sq & Qq & C & _).
    destruct (IH (seen t q)) as (n & q' & E' & U' & Gq' & Sq' & Qq' & C').
    + exact Gq.
    + symmetry. exact U.
    + apply Sq.
    + exists (Datatypes.S n), q'. split.
      { intros f Hf. destruct f as [|f]; [lia|]. cbn [read]. rewrite E. rewrite (proj2 (aside_iff t) A). apply E'. lia. }
      split; [exact U'|]. split; [exact Gq'|]. split; [exact (same_trans _ _ _ Sq Sq')|].
      split; [exact (quiet_trans _ _ _ Qq Qq')|exact C'].
Qed.
Lemma pushBack_ok t p : good p -> canPush t p ->
  exists q, pushBack t p = Some q /\ up q = (t :: fst (up p), snd (up p)) /\ good q /\ same p q /\ quiet p q.
Proof.
  intros [G1 G2] C. unfold pushBack. destruct (pRestore p) eqn:R.
  - destruct (C R) as (n & E & N). rewrite E, N, tokenEqb_refl. eexists. split; [reflexivity|].
    split; [unfold up; cbn; rewrite E; now rewrite (skipn_nth _ _ _ _ N)|].
    split; [split; [cbn; congruence|cbn; lia]|]. split; [unfold same; cbn; auto|unfold quiet; cbn; auto].
  - rewrite (G1 eq_refl). eexists. split; [reflexivity|]. split; [unfold up; cbn; now rewrite (G1 eq_refl)|].
    split; [split; [reflexivity|cbn; lia]|]. split; [unfold same; cbn; auto|unfold quiet; cbn; auto].
Qed.

(** ** One round of skipping *)
Definition nestedTok (t : ttype) (angles : bool) : bool :=
  match t with OpenAngle => angles | OpenCurly | OpenParen | OpenSquare => true | _ => false end.
Notation reads n p t q := (forall f, (n <= f)%nat -> read next f p = Some (t, q)).
Lemma step_close n p t q open close : reads n p t q -> tokType t = close ->
  forall f, (Datatypes.S n <= f)%nat -> skipLoop next f open close p = Some (Some t, q).
Proof.
  intros R E f Hf. destruct f as [|f]; [lia|]. cbn [skipLoop]. rewrite (R f) by lia.
  now rewrite (proj2 (ttypeEqb_eq _ _) E).
Qed.
Lemma step_accept n p t q open close : reads n p t q -> good q -> canPush t q -> tokType t <> close ->
  accepts (pAccept q) (tokType t) = true ->
  exists q', (forall f, (Datatypes.S n <= f)%nat -> skipLoop next f open close p = Some (None, q')) /\
    up q' = (t :: fst (up q), snd (up q)) /\ good q' /\ same q q'.
Proof.
  intros R G C E A. destruct (pushBack_ok t q G C) as (q1 & P & U & G1 & S1 & _).
  exists (report true (UnclosedToken t open) q1). split.
  - intros f Hf. destruct f as [|f]; [lia|]. cbn [skipLoop]. rewrite (R f) by lia. rewrite (ttypeEqb_neq _ _ E).
    unfold okToStay. now rewrite A, P.
  - unfold report. destruct (pRestore q1) eqn:RE; unfold up, good, same in *; cbn in *; rewrite ?RE in *; auto.
Qed.
Lemma step_plain n m p t q open close r : reads n p t q -> tokType t <> close ->
  accepts (pAccept q) (tokType t) = false -> tokType t <> EndOfFile -> nestedTok (tokType t) (pAngles q) = false ->
  (forall f, (m <= f)%nat -> skipLoop next f open close q = r) ->
  forall f, (Datatypes.S (n + m) <= f)%nat -> skipLoop next f open close p = r.
Proof.
  intros R E A NE NN K f Hf. destruct f as [|f]; [lia|]. cbn [skipLoop]. rewrite (R f) by lia. rewrite (ttypeEqb_neq _ _ E).
  unfold okToStay. rewrite A. unfold nestedTok in NN.
  destruct (tokType t); try congruence; try discriminate; try (apply K; lia). rewrite NN. apply K. lia.
Qed.
Lemma step_nested n m1 m2 p t q open close c a g r q' R0 : reads n p t q -> tokType t <> close ->
  accepts (pAccept q) (tokType t) = false -> nestedTok (tokType t) (pAngles q) = true ->
  closeOf (tokType t) = Some c -> scopeFlags (tokType t) (pAccept q) = Some (a, g) ->
  (forall f, (m1 <= f)%nat -> skipLoop next f t c (setScope a g q) = Some (r, q')) ->
  (forall f, (m2 <= f)%nat -> skipLoop next f open close (restoreScope q q') = R0) ->
  forall f, (Datatypes.S (n + m1 + m2) <= f)%nat -> skipLoop next f open close p = R0.
Proof.
  intros R E A NN C SF K1 K2 f Hf. destruct f as [|f]; [lia|]. cbn [skipLoop]. rewrite (R f) by lia. rewrite (ttypeEqb_neq _ _ E).
  unfold okToStay. rewrite A. unfold nestedTok in NN.
  assert (X : match closeOf (tokType t), scopeFlags (tokType t) (pAccept q) with
              | Some c, Some (a, g) => match skipLoop next f t c (setScope a g q) with
                                       | Some (_, q') => skipLoop next f open close (restoreScope q q')
                                       | None => None end
              | _, _ => None end = R0).
  { rewrite C, SF, (K1 f) by lia. apply K2. lia. }
  destruct (tokType t); try discriminate; try exact X. rewrite NN. exact X.
Qed.
Lemma step_eof n p t q open close : reads n p t q -> tokType t = EndOfFile -> close <> EndOfFile ->
  forall f, (Datatypes.S n <= f)%nat -> skipLoop next f open close p = Some (None, report true (UnclosedToken t open) q).
Proof.
  intros R E NE f Hf. destruct f as [|f]; [lia|]. cbn [skipLoop]. rewrite (R f) by lia. rewrite ttypeEqb_neq by congruence.
  unfold okToStay. rewrite E. reflexivity.
Qed.
Lemma scope_up a g p : up (setScope a g p) = up p. Proof. reflexivity. Qed.
Lemma restore_same p a g q : same (setScope a g p) q -> same p (restoreScope p q).
Proof. unfold same. cbn. intuition. Qed.

(** ** Curly brackets *)
Definition curlyFlags : accept := mkAccept false true false false false.
Lemma pull_pending a t u : ~ aside t -> pull next a (t :: fst u, snd u) t u.
Proof. intros H. apply pl_token; [|exact H]. destruct u as [l s]. apply pr_pending. Qed.
Lemma not_aside a u t u' : pull next a u t u' -> ~ aside t.
Proof. intros H. induction H; assumption. Qed.
Definition parenOrSquare (t c : ttype) : Prop := (t = OpenParen /\ c = CloseParen) \/ (t = OpenSquare /\ c = CloseSquare).
Lemma curly_loop : forall k0 k, (k < k0)%nat -> forall v v2 c v3 p open, curlies next k v v2 -> pull next false v2 c v3 ->
  tokType c = CloseCurly -> good p -> up p = v -> pAngles p = false ->
  (pAccept p = curlyFlags -> exists n q, (forall f, (n <= f)%nat -> skipLoop next f open CloseCurly p = Some (Some c, q)) /\
      up q = v3 /\ good q /\ same p q) /\
  (forall close, (close = CloseParen \/ close = CloseSquare) -> aOpenCurly (pAccept p) = false -> aCloseCurly (pAccept p) = true ->
     exists n r q, (forall f, (n <= f)%nat -> skipLoop next f open close p = Some (r, q)) /\ good q /\ same p q /\
       exists k' v2', (k' <= k)%nat /\ curlies next k' (up q) v2' /\ pull next false v2' c v3).
Proof.
  induction k0 as [|k0 IH]; intros k Hk v v2 c v3 p open CU PC TC G U AN; [lia|].
  destruct CU as [u|k1 u t u1 u2 P N1 N2 N3 CU|k1 k2 u o u1 u2 c1 u3 u4 P TO CU1 P1 T1 CU2].
  - rewrite <- U, <- AN in PC. destruct (read_pull p c v3 G PC) as (n & q & R & Uq & Gq & Sq & _ & Cq). split.
    + intros _. exists (Datatypes.S n), q. split; [exact (step_close n p c q open CloseCurly R TC)|]. auto.
    + intros close HC _ AC. destruct (step_accept n p c q open close R Gq Cq) as (q' & K & Uq' & Gq' & Sq').
      { rewrite TC. destruct HC; subst; discriminate. }
      { rewrite TC. cbn. destruct Sq as (_ & <- & _). exact AC. }
      exists (Datatypes.S n), None, q'. split; [exact K|]. split; [exact Gq'|]. split; [exact (same_trans _ _ _ Sq Sq')|].
      exists 0%nat, (up q'). split; [lia|]. split; [constructor|]. rewrite Uq', Uq. apply pull_pending. exact (not_aside _ _ _ _ PC).
  - rewrite <- U, <- AN in P. destruct (read_pull p t u1 G P) as (n & q & R & Uq & Gq & Sq & _ & Cq).
    assert (AQ : pAngles q = false) by (destruct Sq as (_ & _ & <-); exact AN).
    assert (FQ : pAccept q = pAccept p) by (destruct Sq as (_ & -> & _); reflexivity).
    (* a nested parenthesis or square bracket *)
    assert (NEST : aOpenCurly (pAccept q) = false -> aCloseCurly (pAccept q) = true -> forall a g cl, nestedTok (tokType t) false = true ->
       closeOf (tokType t) = Some cl -> scopeFlags (tokType t) (pAccept q) = Some (a, g) ->
       exists m r q', (forall f, (m <= f)%nat -> skipLoop next f t cl (setScope a g q) = Some (r, q')) /\ good q' /\ same (setScope a g q) q' /\
         exists k' v2', (k' <= k1)%nat /\ curlies next k' (up q') v2' /\ pull next false v2' c v3).
    { intros A1 A2 a g cl NN CL SF.
      assert (X : (cl = CloseParen \/ cl = CloseSquare) /\ aOpenCurly a = false /\ aCloseCurly a = true /\ g = false).
      { destruct (tokType t); try discriminate; try congruence; injection CL as <-; injection SF as <- <-; cbn; auto. }
      destruct X as (X1 & X2 & X3 & X4).
      exact (proj2 (IH k1 ltac:(lia) u1 u2 c v3 (setScope a g q) t CU PC TC Gq Uq X4) cl X1 X2 X3). }
    split.
    + intros FL. assert (NA : accepts (pAccept q) (tokType t) = false) by (rewrite FQ, FL; destruct (tokType t); reflexivity || congruence).
      destruct (nestedTok (tokType t) false) eqn:NN.
      * assert (SC : exists cl a g, closeOf (tokType t) = Some cl /\ scopeFlags (tokType t) (pAccept q) = Some (a, g))
          by (destruct (tokType t); try discriminate; eexists _, _, _; split; reflexivity).
        destruct SC as (cl & a & g & CL & SF).
        destruct (NEST ltac:(rewrite FQ, FL; reflexivity) ltac:(rewrite FQ, FL; reflexivity) a g cl eq_refl CL SF)
          as (m & r & q' & K & Gq' & Sq' & k' & v2' & Lk & CU' & PC').
        destruct (proj1 (IH k' ltac:(lia) (up q') v2' c v3 (restoreScope q q') open CU' PC' TC Gq' eq_refl AQ)) as (m2 & q2 & K2 & U2 & G2 & S2).
        { cbn. now rewrite FQ. }
        eexists _, q2. split; [|split; [exact U2|split; [exact G2|]]].
        -- refine (step_nested n m m2 p t q open CloseCurly cl a g r q' _ R N2 NA _ CL SF K K2). now rewrite AQ.
        -- exact (same_trans _ _ _ Sq (same_trans _ _ _ (restore_same _ _ _ _ Sq') S2)).
      * destruct (proj1 (IH k1 ltac:(lia) u1 u2 c v3 q open CU PC TC Gq Uq AQ) ltac:(now rewrite FQ)) as (m & q2 & K & U2 & G2 & S2).
        eexists _, q2. split; [|split; [exact U2|split; [exact G2|exact (same_trans _ _ _ Sq S2)]]].
        refine (step_plain n m p t q open CloseCurly _ R N2 NA N3 _ K). now rewrite AQ.
    + intros close HC A1 A2.
      destruct (ttype_eq_dec (tokType t) close) as [TC'|NC].
      { exists (Datatypes.S n), (Some t), q. split; [exact (step_close n p t q open close R TC')|]. split; [exact Gq|]. split; [exact Sq|].
        exists k1, u2. split; [lia|]. split; [now rewrite Uq|exact PC]. }
      destruct (accepts (pAccept q) (tokType t)) eqn:NA.
      { destruct (step_accept n p t q open close R Gq Cq NC NA) as (q' & K & Uq' & Gq' & Sq').
        exists (Datatypes.S n), None, q'. split; [exact K|]. split; [exact Gq'|]. split; [exact (same_trans _ _ _ Sq Sq')|].
        exists (Datatypes.S k1), u2. split; [lia|]. split; [|exact PC].
        refine (cu_tok next k1 _ t u1 u2 _ N1 N2 N3 CU). rewrite Uq', Uq. apply pull_pending. exact (not_aside _ _ _ _ P). }
      destruct (nestedTok (tokType t) false) eqn:NN.
      * assert (SC : exists cl a g, closeOf (tokType t) = Some cl /\ scopeFlags (tokType t) (pAccept q) = Some (a, g))
          by (destruct (tokType t); try discriminate; eexists _, _, _; split; reflexivity).
        destruct SC as (cl & a & g & CL & SF).
        destruct (NEST ltac:(now rewrite FQ) ltac:(now rewrite FQ) a g cl eq_refl CL SF)
          as (m & r & q' & K & Gq' & Sq' & k' & v2' & Lk & CU' & PC').
        destruct (proj2 (IH k' ltac:(lia) (up q') v2' c v3 (restoreScope q q') open CU' PC' TC Gq' eq_refl AQ) close HC)
          as (m2 & r2 & q2 & K2 & G2 & S2 & k2 & v2'' & L2 & CU2 & PC2).
        { cbn. now rewrite FQ. } { cbn. now rewrite FQ. }
        eexists _, r2, q2. split; [|split; [exact G2|split]].
        -- refine (step_nested n m m2 p t q open close cl a g r q' _ R NC NA _ CL SF K K2). now rewrite AQ.
        -- exact (same_trans _ _ _ Sq (same_trans _ _ _ (restore_same _ _ _ _ Sq') S2)).
        -- exists k2, v2''. split; [lia|]. split; [exact CU2|exact PC2].
      * destruct (proj2 (IH k1 ltac:(lia) u1 u2 c v3 q open CU PC TC Gq Uq AQ) close HC ltac:(now rewrite FQ) ltac:(now rewrite FQ))
          as (m & r2 & q2 & K & G2 & S2 & k2 & v2'' & L2 & CU2 & PC2).
        eexists _, r2, q2. split; [|split; [exact G2|split; [exact (same_trans _ _ _ Sq S2)|]]].
        -- refine (step_plain n m p t q open close _ R NC NA N3 _ K). now rewrite AQ.
        -- exists k2, v2''. split; [lia|]. split; [exact CU2|exact PC2].
  - rewrite <- U, <- AN in P. destruct (read_pull p o u1 G P) as (n & q & R & Uq & Gq & Sq & _ & Cq).
    assert (AQ : pAngles q = false) by (destruct Sq as (_ & _ & <-); exact AN).
    assert (FQ : pAccept q = pAccept p) by (destruct Sq as (_ & -> & _); reflexivity).
    destruct (proj1 (IH k1 ltac:(lia) u1 u2 c1 u3 (setScope curlyFlags false q) o CU1 P1 T1 Gq Uq eq_refl) eq_refl) as (m & q' & K & Uq' & Gq' & Sq').
    split.
    + intros FL. destruct (proj1 (IH k2 ltac:(lia) u3 u4 c v3 (restoreScope q q') open CU2 PC TC Gq' Uq' AQ)) as (m2 & q2 & K2 & U2 & G2 & S2).
      { cbn. now rewrite FQ. }
      eexists _, q2. split; [|split; [exact U2|split; [exact G2|]]].
      -- refine (step_nested n m m2 p o q open CloseCurly CloseCurly curlyFlags false (Some c1) q' _ R _ _ _ _ _ K K2); rewrite TO; try reflexivity; try discriminate.
         rewrite FQ, FL. reflexivity.
      -- exact (same_trans _ _ _ Sq (same_trans _ _ _ (restore_same _ _ _ _ Sq') S2)).
    + intros close HC A1 A2.
      destruct (proj2 (IH k2 ltac:(lia) u3 u4 c v3 (restoreScope q q') open CU2 PC TC Gq' Uq' AQ) close HC)
        as (m2 & r2 & q2 & K2 & G2 & S2 & k3 & v2'' & L2 & CU3 & PC3).
      { cbn. now rewrite FQ. } { cbn. now rewrite FQ. }
      eexists _, r2, q2. split; [|split; [exact G2|split]].
      -- refine (step_nested n m m2 p o q open close CloseCurly curlyFlags false (Some c1) q' _ R _ _ _ _ _ K K2); rewrite TO; try reflexivity;
           try (destruct HC; subst; discriminate). cbn. now rewrite FQ.
      -- exact (same_trans _ _ _ Sq (same_trans _ _ _ (restore_same _ _ _ _ Sq') S2)).
      -- exists k3, v2''. split; [lia|]. split; [exact CU3|exact PC3].
Qed.
Theorem curly_skipped k u u2 c u3 open p : curlies next k u u2 -> pull next false u2 c u3 -> tokType c = CloseCurly ->
  tokType open = OpenCurly -> good p -> up p = u ->
  exists n q, (forall f, (n <= f)%nat -> skipAnyScope next f open p = Some (Some c, q)) /\ up q = u3 /\ good q /\ same p q.
Proof.
  intros CU PC TC TO G U.
  destruct (proj1 (curly_loop _ k (Nat.lt_succ_diag_r k) u u2 c u3 (setScope curlyFlags false p) open CU PC TC G U eq_refl) eq_refl)
    as (n & q & K & Uq & Gq & Sq).
  exists n, (restoreScope p q). split; [|split; [exact Uq|split; [exact Gq|exact (restore_same _ _ _ _ Sq)]]].
  intros f Hf. unfold skipAnyScope. rewrite TO. cbn [closeOf scopeFlags]. fold curlyFlags. now rewrite (K f Hf).
Qed.

(** ** Balanced brackets *)
Definition okFlags (angles : bool) (a : accept) : Prop := aOpenCurly a = false /\ (angles = false -> aCloseAngle a = false).
Lemma pair_close o c : pair o c -> closeOf o = Some c /\ (forall a, exists a', scopeFlags o a = Some (a', inAngles o) /\
    (aOpenCurly a = false -> okFlags (inAngles o) a')) /\ bracket (inAngles o) c /\ c <> EndOfFile.
Proof.
  unfold pair, okFlags, bracket. cbn [In]. intros [E|[E|[E|[E|[]]]]]; injection E as <- <-; (split; [reflexivity|]); (split; [|split; [cbn; tauto|discriminate]]);
    intros a; eexists; (split; [reflexivity|]); cbn; intuition discriminate.
Qed.
Lemma bal_loop angles u u2 : balanced next angles u u2 -> forall c u3 p open close,
  pull next angles u2 c u3 -> tokType c = close -> bracket angles close -> (exists o, pair o close) ->
  good p -> up p = u -> pAngles p = angles -> okFlags angles (pAccept p) ->
  exists n q, (forall f, (n <= f)%nat -> skipLoop next f open close p = Some (Some c, q)) /\ up q = u3 /\ good q /\ same p q /\ quiet p q.
Proof.
  intros B. induction B as [angles u|angles u t u1 u2 P NB NE B IH|angles u o u1 u2 c1 u3 u4 P PR BR B1 IH1 P1 B2 IH2];
    intros c v3 p open close PC TC BC PO G U AN [F1 F2].
  - rewrite <- U, <- AN in PC. destruct (read_pull p c v3 G PC) as (n & q & R & Uq & Gq & Sq & Qq & Cq).
    exists (Datatypes.S n), q. split; [exact (step_close n p c q open close R TC)|]. auto.
  - rewrite <- U, <- AN in P. destruct (read_pull p t u1 G P) as (n & q & R & Uq & Gq & Sq & Qq & Cq).
    assert (AQ : pAngles q = angles) by (destruct Sq as (_ & _ & <-); exact AN).
    assert (FQ : pAccept q = pAccept p) by (destruct Sq as (_ & -> & _); reflexivity).
    destruct (IH c v3 q open close PC TC BC PO Gq Uq AQ) as (m & q2 & K & U2 & G2 & S2 & Q2).
    { split; rewrite FQ; assumption. }
    eexists _, q2. split; [|split; [exact U2|split; [exact G2|split; [exact (same_trans _ _ _ Sq S2)|exact (quiet_trans _ _ _ Qq Q2)]]]].
    refine (step_plain n m p t q open close _ R _ _ NE _ K).
    + intros E. apply NB. now rewrite E.
    + rewrite FQ. unfold bracket in NB. cbn [In] in NB.
      destruct (tokType t); try reflexivity; try tauto; cbn.
      destruct angles; [exfalso; apply NB; right; split; [reflexivity|now right]|now apply F2].
    + unfold nestedTok. rewrite AQ. unfold bracket in NB. cbn [In] in NB.
      destruct (tokType t); try reflexivity; try tauto. destruct angles; [exfalso; apply NB; right; split; [reflexivity|now left]|reflexivity].
  - rewrite <- U, <- AN in P. destruct (read_pull p o u1 G P) as (n & q & R & Uq & Gq & Sq & Qq & Cq).
    assert (AQ : pAngles q = angles) by (destruct Sq as (_ & _ & <-); exact AN).
    assert (FQ : pAccept q = pAccept p) by (destruct Sq as (_ & -> & _); reflexivity).
    destruct (pair_close _ _ PR) as (CL & SF & BC1 & _). destruct (SF (pAccept q)) as (a & SFa & OK).
    destruct (IH1 c1 u3 (setScope a (inAngles (tokType o)) q) o (tokType c1) P1 eq_refl BC1 (ex_intro (fun o => pair o _) _ PR) Gq Uq eq_refl
        (OK ltac:(now rewrite FQ))) as (m & q' & K & Uq' & Gq' & Sq' & Qq').
    destruct (IH2 c v3 (restoreScope q q') open close PC TC BC PO Gq' Uq' AQ) as (m2 & q2 & K2 & U2 & G2 & S2 & Q2).
    { cbn. rewrite FQ. split; assumption. }
    eexists _, q2. split; [|split; [exact U2|split; [exact G2|split]]].
    + refine (step_nested n m m2 p o q open close (tokType c1) a (inAngles (tokType o)) (Some c1) q' _ R _ _ _ CL SFa K K2).
      * intros E. destruct PO as (o' & PO). rewrite <- E in PO. revert PR PO. unfold pair. cbn [In]. intros PR PO.
        destruct PR as [X|[X|[X|[X|[]]]]]; injection X as X _; rewrite <- X in PO; destruct PO as [Y|[Y|[Y|[Y|[]]]]]; discriminate.
      * rewrite FQ. revert PR. unfold pair. cbn [In]. intros [X|[X|[X|[X|[]]]]]; injection X as X _; rewrite <- X; cbn; auto.
      * rewrite AQ. unfold bracket in BR. cbn [In] in BR. revert PR. unfold pair. cbn [In].
        intros [X|[X|[X|[X|[]]]]]; injection X as X _; rewrite <- X in *; cbn; auto.
        destruct BR as [BR|[BR _]]; [|exact BR]. intuition discriminate.
    + exact (same_trans _ _ _ Sq (same_trans _ _ _ (restore_same _ _ _ _ Sq') S2)).
    + exact (quiet_trans _ _ _ Qq (quiet_trans _ _ _ Qq' Q2)).
Qed.
Theorem balanced_skipped u u2 c u3 open p : balanced next (inAngles (tokType open)) u u2 ->
  pull next (inAngles (tokType open)) u2 c u3 -> pair (tokType open) (tokType c) ->
  aOpenCurly (pAccept p) = false -> good p -> up p = u ->
  exists n q, (forall f, (n <= f)%nat -> skipAnyScope next f open p = Some (Some c, q)) /\ up q = u3 /\ good q /\ same p q /\ quiet p q.
Proof.
  intros B PC PR F G U. destruct (pair_close _ _ PR) as (CL & SF & BC & _). destruct (SF (pAccept p)) as (a & SFa & OK).
  destruct (bal_loop _ _ _ B c u3 (setScope a (inAngles (tokType open)) p) open (tokType c) PC eq_refl BC (ex_intro (fun o => pair o _) _ PR) G U eq_refl (OK F))
    as (n & q & K & Uq & Gq & Sq & Qq).
  exists n, (restoreScope p q). split; [|split; [exact Uq|split; [exact Gq|split; [exact (restore_same _ _ _ _ Sq)|exact Qq]]]].
  intros f Hf. unfold skipAnyScope. rewrite CL, SFa. now rewrite (K f Hf).
Qed.

(** ** Skipping ends *)
Lemma over_ends n u : over next u -> ends next n u.
Proof.
  intros [H1 H2]. assert (X : forall angles, exists t u', pullRaw next angles u t u' /\ tokType t = EndOfFile /\ over next u').
  { intros angles. destruct u as [[|t l] s]; cbn in *.
    - destruct (H2 angles) as (t & E & T). exists t, ([], s). split; [now apply pr_next|]. split; [exact T|]. split; [constructor|exact H2].
    - inversion H1; subst. exists t, (l, s). split; [apply pr_pending|]. split; [assumption|]. split; assumption. }
  destruct n; cbn [ends]; intros angles; destruct (X angles) as (t & u' & P & T & O); exists t, u'; (split; [exact P|left; split; assumption]).
Qed.
Lemma ends_pull angles : forall n u, ends next n u -> exists t u', pull next angles u t u' /\
  ((tokType t = EndOfFile /\ over next u') \/ (tokType t <> EndOfFile /\ exists k, (k < n)%nat /\ ends next k u')).
Proof.
  induction n as [|n IH]; intros u H; cbn [ends] in H; destruct (H angles) as (t & u' & P & [[T O]|[T E]]).
  - exists t, u'. split; [apply pl_token; [exact P|]|left; split; assumption]. unfold aside. rewrite T. cbn. intuition discriminate.
  - contradiction.
  - exists t, u'. split; [apply pl_token; [exact P|]|left; split; assumption]. unfold aside. rewrite T. cbn. intuition discriminate.
  - destruct (isAside (tokType t)) eqn:A.
    + apply aside_iff in A. destruct (IH u' E) as (t2 & u2 & P2 & D). exists t2, u2. split; [exact (pl_aside next angles u t u' t2 u2 P A P2)|].
      destruct D as [D|(D & k & Hk & D')]; [now left|]. right. split; [exact D|]. exists k. split; [lia|exact D'].
    + exists t, u'. split; [apply pl_token; [exact P|]|]. { intros X. apply aside_iff in X. congruence. }
      right. split; [exact T|]. exists n. split; [lia|exact E].
Qed.
Lemma ends_push n t u : tokType t <> EndOfFile -> ends next n u -> ends next (Datatypes.S n) (t :: fst u, snd u).
Proof.
  intros T E. cbn [ends]. intros angles. exists t, u. split; [destruct u; apply pr_pending|]. right. split; [exact T|exact E].
Qed.
Definition stopped (a : accept) (close : ttype) (u : upcoming) : Prop :=
  forall angles, exists t u', pull next angles u t u' /\ (tokType t = EndOfFile \/ (accepts a (tokType t) = true /\ tokType t <> close)).
Lemma over_stopped a close u : over next u -> stopped a close u.
Proof.
  intros O angles. destruct (ends_pull angles 0 u (over_ends 0 u O)) as (t & u' & P & [[T _]|[T (k & Hk & _)]]); [|lia].
  exists t, u'. split; [exact P|now left].
Qed.
Lemma ends_loop : forall k0 k, (k < k0)%nat -> forall p open close, ends next k (up p) -> good p -> close <> EndOfFile ->
  exists n r q, (forall f, (n <= f)%nat -> skipLoop next f open close p = Some (r, q)) /\ good q /\ same p q /\
    (exists k', (k' <= k)%nat /\ ends next k' (up q)) /\ (r = None -> stopped (pAccept p) close (up q)) /\
    (forall t, r = Some t -> tokType t = close).
Proof.
  induction k0 as [|k0 IH]; intros k Hk p open close E G NC; [lia|].
  destruct (ends_pull (pAngles p) k (up p) E) as (t & u' & P & D).
  destruct (read_pull p t u' G P) as (n & q & R & Uq & Gq & Sq & _ & Cq).
  assert (FQ : pAccept q = pAccept p) by (destruct Sq as (_ & -> & _); reflexivity).
  destruct D as [[T O]|(T & k1 & Hk1 & E1)].
  { eexists _, None, _. split; [exact (step_eof n p t q open close R T NC)|]. rewrite <- Uq in O.
    assert (X : up (report true (UnclosedToken t open) q) = up q /\ good (report true (UnclosedToken t open) q) /\ same q (report true (UnclosedToken t open) q))
      by (unfold report; destruct (pRestore q) eqn:RE; unfold up, good, same in *; cbn in *; rewrite ?RE in *; auto).
    destruct X as (X1 & X2 & X3). split; [exact X2|]. split; [exact (same_trans _ _ _ Sq X3)|]. rewrite X1.
    split; [exists 0%nat; split; [lia|now apply over_ends]|]. split; [intros _; now apply over_stopped|discriminate]. }
  destruct (ttype_eq_dec (tokType t) close) as [TC|NT].
  { exists (Datatypes.S n), (Some t), q. split; [exact (step_close n p t q open close R TC)|]. split; [exact Gq|]. split; [exact Sq|].
    split; [exists k1; split; [lia|now rewrite Uq]|]. split; [discriminate|]. intros t' X. injection X as <-. exact TC. }
  destruct (accepts (pAccept q) (tokType t)) eqn:NA.
  { destruct (step_accept n p t q open close R Gq Cq NT NA) as (q' & K & Uq' & Gq' & Sq').
    exists (Datatypes.S n), None, q'. split; [exact K|]. split; [exact Gq'|]. split; [exact (same_trans _ _ _ Sq Sq')|].
    split; [exists (Datatypes.S k1); split; [lia|]; rewrite Uq', Uq; now apply ends_push|]. split; [|discriminate].
    intros _ angles. exists t, (up q). split; [rewrite Uq'; apply pull_pending; exact (not_aside _ _ _ _ P)|]. right. rewrite <- FQ. auto. }
  destruct (nestedTok (tokType t) (pAngles q)) eqn:NN.
  - assert (SC : exists cl a g, closeOf (tokType t) = Some cl /\ scopeFlags (tokType t) (pAccept q) = Some (a, g) /\ cl <> EndOfFile)
      by (destruct (tokType t); try discriminate; eexists _, _, _; (split; [reflexivity|]); (split; [reflexivity|discriminate])).
    destruct SC as (cl & a & g & CL & SF & NCL).
    destruct (IH k1 ltac:(lia) (setScope a g q) t cl ltac:(rewrite scope_up, Uq; exact E1) Gq NCL) as (m & r & q' & K & Gq' & Sq' & (k2 & Hk2 & E2) & _).
    destruct (IH k2 ltac:(lia) (restoreScope q q') open close E2 Gq' NC) as (m2 & r2 & q2 & K2 & G2 & S2 & (k3 & Hk3 & E3) & ST & CT).
    eexists _, r2, q2. split; [exact (step_nested n m m2 p t q open close cl a g r q' _ R NT NA NN CL SF K K2)|].
    split; [exact G2|]. split; [exact (same_trans _ _ _ Sq (same_trans _ _ _ (restore_same _ _ _ _ Sq') S2))|].
    split; [exists k3; split; [lia|exact E3]|]. split; [|exact CT]. cbn in ST. now rewrite FQ in ST.
  - destruct (IH k1 ltac:(lia) q open close ltac:(now rewrite Uq) Gq NC) as (m2 & r2 & q2 & K2 & G2 & S2 & (k3 & Hk3 & E3) & ST & CT).
    eexists _, r2, q2. split; [exact (step_plain n m2 p t q open close _ R NT NA T NN K2)|].
    split; [exact G2|]. split; [exact (same_trans _ _ _ Sq S2)|]. split; [exists k3; split; [lia|exact E3]|]. split; [|exact CT]. now rewrite FQ in ST.
Qed.
Theorem skipping_ends k open c p : ends next k (up p) -> good p -> pair (tokType open) c ->
  exists n r q, (forall f, (n <= f)%nat -> skipAnyScope next f open p = Some (r, q)) /\ good q /\ same p q /\
    (exists k', (k' <= k)%nat /\ ends next k' (up q)) /\ (forall t, r = Some t -> tokType t = c) /\
    (r = None -> forall angles, exists t u, pull next angles (up q) t u /\
       (tokType t = EndOfFile \/ (accepts (pAccept p) (tokType t) = true /\ tokType t <> c))).
Proof.
  intros E G PR. destruct (pair_close _ _ PR) as (CL & SF & BC & NC). destruct (SF (pAccept p)) as (a & SFa & _).
  destruct (ends_loop _ k (Nat.lt_succ_diag_r k) (setScope a (inAngles (tokType open)) p) open c E G NC)
    as (n & r & q & K & Gq & Sq & EE & ST & CT).
  exists n, r, (restoreScope p q). split; [intros f Hf; unfold skipAnyScope; rewrite CL, SFa; now rewrite (K f Hf)|].
  split; [exact Gq|]. split; [exact (restore_same _ _ _ _ Sq)|]. split; [exact EE|]. split; [exact CT|].
  intros Hr angles. destruct (ST Hr angles) as (t & u & P & D). exists t, u. split; [exact P|]. destruct D as [D|[D1 D2]]; [now left|]. right.
  split; [|exact D2]. cbn in D1. revert PR D1 D2 SFa. unfold pair. cbn [In].
  intros [X|[X|[X|[X|[]]]]]; injection X as <- <-; cbn [scopeFlags]; intros D1 D2 SFa; injection SFa as <-;
    destruct (tokType t); cbn in *; congruence.
Qed.

(** ** Restore points *)
Inductive fed (angles : bool) : S -> list token -> S -> Prop :=
| fed_nil s : fed angles s [] s
| fed_cons s t s1 ts s2 : next angles s = Some (t, s1) -> fed angles s1 ts s2 -> fed angles s (t :: ts) s2.
Lemma fed_snoc angles s ts s1 t s2 : fed angles s ts s1 -> next angles s1 = Some (t, s2) -> fed angles s (ts ++ [t]) s2.
Proof. intros H. induction H; intros E; cbn; econstructor; eauto. constructor. Qed.
Definition upRel (angles : bool) (u v : upcoming) : Prop := exists ts, fst v = fst u ++ ts /\ fed angles (snd u) ts (snd v).
Lemma raw_rel angles u t u' v : pullRaw next angles u t u' -> upRel angles u v ->
  exists v', pullRaw next angles v t v' /\ upRel angles u' v'.
Proof.
  intros P (ts & E & F). destruct v as [vp vs]. cbn in E, F. subst vp. destruct P as [t l s|s t s' N]; cbn in *.
  - exists (l ++ ts, vs). split; [apply pr_pending|]. exists ts. split; [reflexivity|exact F].
  - destruct F as [s|s t1 s1 ts s2 N1 F].
    + exists ([], s'). split; [now apply pr_next|]. exists []. split; [reflexivity|constructor].
    + rewrite N in N1. injection N1 as <- <-. exists (ts, s2). split; [apply pr_pending|]. exists ts. split; [reflexivity|exact F].
Qed.
Definition markRel (angles : bool) (p : parser) (m : upcoming * nat * nat) (r : restorePoint) : Prop :=
  let '(u, n, e) := m in
  upRel angles u (skipn (rPos r) (pQueue p), pSrc p) /\ (rPos r <= length (pQueue p))%nat /\ (n <= rPos r)%nat /\ rErrors r = e.
Fixpoint shape (rs : list restorePoint) : Prop :=
  match rs with
  | [] => True
  | [r] => rWas r = false /\ rPos r = 0%nat
  | r :: rs => rWas r = true /\ (0 < rPos r)%nat /\ shape rs
  end.
Definition marked (ms : list (@upcoming S * nat * nat)) : bool := match ms with [] => false | _ => true end.
Definition rel0 (angles : bool) (u : upcoming) (ms : list (upcoming * nat * nat)) (rs : list restorePoint) (p : parser) : Prop :=
  good p /\ pAngles p = angles /\ upRel angles u (up p) /\ pRestore p = marked ms /\ Forall2 (markRel angles p) ms rs /\ shape rs.
Lemma raw_rel0 angles u t u' ms rs p : pullRaw next angles u t u' -> rel0 angles u ms rs p ->
  exists q, readRaw next p = Some (t, q) /\ rel0 angles u' ms rs q /\ quiet p q /\ canPush t q /\ (pRestore p = true -> pPos q = Datatypes.S (pPos p)).
Proof.
  intros P (G & A & U & R & M & SH). destruct (raw_rel angles u t u' (up p) P U) as (v' & P' & U'). rewrite <- A in P'.
  destruct (readRaw_pull p t v' G P') as (q & E & Uq & Gq & Sq & Qq & Cq & _ & PQ & W).
  exists q. split; [exact E|]. split; [|split; [exact Qq|split; [exact Cq|exact PQ]]].
  split; [exact Gq|]. split; [destruct Sq as (_ & _ & <-); exact A|]. split; [now rewrite Uq|]. split; [destruct Sq as (<- & _); exact R|].
  split; [|exact SH]. destruct W as [(W1 & W2 & _)|[W|(W1 & W2 & W3)]].
  - clear - M W1 W2. induction M as [|[[u0 n0] e0] r ms rs H M IH]; constructor; [|exact IH]. unfold markRel in *. now rewrite W1, W2.
  - rewrite W in R. destruct ms; [|discriminate]. inversion M. constructor.
  - rewrite A in W3. clear - M W1 W3. induction M as [|[[u0 n0] e0] r ms rs H M IH]; constructor; [|exact IH].
    destruct H as ((ts & H1 & H2) & H3 & H4 & H5). cbn in H1, H2. unfold markRel. rewrite W1. split; [|split; [rewrite app_length; lia|auto]].
    exists (ts ++ [t]). cbn. split; [|exact (fed_snoc _ _ _ _ _ _ H2 W3)]. rewrite skipn_app, H1.
    replace (rPos r - length (pQueue p))%nat with 0%nat by lia. cbn. now rewrite app_assoc.
Qed.
Lemma read_rel angles u t u' : pull next angles u t u' -> forall ms rs p, rel0 angles u ms rs p ->
  exists n q, reads n p t q /\ rel0 angles u' ms rs q /\ quiet p q /\ canPush t q /\ (pRestore p = true -> (pPos p < pPos q)%nat).
Proof.
  intros H. induction H as [u t u' P NA|u t u1 t' u' P A _ IH]; intros ms rs p R0.
  - destruct (raw_rel0 _ _ _ _ _ _ _ P R0) as (q & E & R1 & Q & C & PQ). exists 1%nat, q. split.
    { intros f Hf. destruct f as [|f]; [lia|]. cbn [read]. rewrite E. rewrite <- aside_iff in NA. now destruct (isAside (tokType t)). }
    split; [exact R1|]. split; [exact Q|]. split; [exact C|]. intros X. rewrite (PQ X). lia.
  - destruct (raw_rel0 _ _ _ _ _ _ _ P R0) as (q & E & R1 & Q & C & PQ).
    destruct (IH ms rs (seen t q) R1) as (n & q' & E' & R' & Q' & C' & PQ'). exists (Datatypes.S n), q'. split.
    { intros f Hf. destruct f as [|f]; [lia|]. cbn [read]. rewrite E, (proj2 (aside_iff t) A). apply E'. lia. }
    split; [exact R'|]. split; [exact (quiet_trans _ _ _ Q Q')|]. split; [exact C'|]. intros X. specialize (PQ X). cbn in PQ'.
    assert (pRestore q = true) by (destruct R0 as (_ & _ & _ & R0 & _); destruct R1 as (_ & _ & _ & R1 & _); congruence). specialize (PQ' H). lia.
Qed.
Definition rel (angles : bool) (a : astate) (last : option token) (rs : list restorePoint) (p : parser) : Prop :=
  rel0 angles (aUp a) (aMarks a) rs p /\ last = aLast a /\ (forall t, aLast a = Some t -> canPush t p) /\
  (pRestore p = true -> (aAt a <= pPos p)%nat) /\ pErrors p = aErrs a /\ length (pReported p) = aTold a /\ pMute p = false.
Lemma step_rel angles a c o a' last rs p : astep next angles a c o a' -> rel angles a last rs p ->
  exists n last' rs' q, (forall f, (n <= f)%nat -> cstep next f c last rs p = Some (o, last', rs', q)) /\ rel angles a' last' rs' q.
Proof.
  intros H (R0 & EL & CP & AT & EE & ER & EM).
  destruct H as [u l n e r ms t u' P|pend s t n e r ms|u l n e r|u l n e r m ms L|u l n e r u0 n0 e0 ms|u l n e r u0 n0 ms|u l n e r|u l n e r m ms];
    cbn [aUp aLast aAt aErrs aTold aMarks] in *.
  - destruct (read_rel _ _ _ _ P _ _ _ R0) as (k & q & E & R1 & Q & C & PQ). exists k, (Some t), rs, q. split.
    { intros f Hf. cbn [cstep]. now rewrite (E f Hf). }
    split; [exact R1|]. cbn. destruct Q as (Q1 & Q2 & Q3). split; [reflexivity|]. split; [intros t' X; injection X as <-; exact C|].
    split; [|rewrite <- Q1, <- Q2, <- Q3; auto]. intros X.
    assert (pRestore p = true) by (destruct R0 as (_ & _ & _ & R0 & _); destruct R1 as (_ & _ & _ & R1' & _); congruence).
    specialize (AT H). specialize (PQ H). lia.
  - subst last. destruct R0 as (G & A & U & R & M & SH). destruct (pushBack_ok t p G (CP t eq_refl)) as (q & E & Uq & Gq & Sq & Qq).
    exists 0%nat, None, rs, q. split; [intros f _; cbn [cstep]; now rewrite E|]. destruct Qq as (Q1 & Q2 & Q3). destruct Sq as (S1 & S2 & S3).
    split; [|cbn; split; [reflexivity|split; [discriminate|split; [|rewrite <- Q1, <- Q2, <- Q3; auto]]]].
    + split; [exact Gq|]. split; [congruence|]. split.
      { rewrite Uq. destruct U as (ts & U1 & U2). exists ts. cbn in *. rewrite U1. split; [reflexivity|exact U2]. }
      split; [cbn; rewrite <- S1; exact R|]. split; [|exact SH].
      destruct (pRestore p) eqn:RP.
      * assert (X : pQueue q = pQueue p /\ pSrc q = pSrc p).
        { unfold pushBack in E. destruct (CP t eq_refl RP) as (k & K1 & K2). rewrite K1, K2, tokenEqb_refl in E. injection E as <-. split; reflexivity. }
        destruct X as (X1 & X2). clear - M X1 X2. induction M as [|[[u0 n0] e0] r0 ms rs H M IH]; constructor; [|exact IH]. unfold markRel in *. now rewrite X1, X2.
      * destruct ms; [|discriminate]. inversion M. constructor.
    + intros X. rewrite <- S1 in X. specialize (AT X). destruct (CP t eq_refl X) as (k & K1 & K2).
      unfold pushBack in E. rewrite K1, K2, tokenEqb_refl in E. injection E as <-. cbn. lia.
  - destruct R0 as (G & A & U & R & M & SH). inversion M; subst rs. cbn in R. destruct G as [G1 G2]. specialize (G1 R).
    exists 0%nat, None, [mkRestore false 0 (pErrors p)], (setQueue true (pQueue p) (pPos p) p). split.
    { intros f _. cbn [cstep]. unfold makeRestore. rewrite R, G1. reflexivity. }
    split; [|cbn; rewrite G1; repeat split; auto; discriminate].
    split; [split; [discriminate|cbn; lia]|]. split; [exact A|]. split; [exact U|]. split; [reflexivity|]. split; [|cbn; auto].
    constructor; [|constructor]. cbn. unfold up in U. rewrite G1 in U. split; [exact U|]. split; [lia|]. split; [lia|exact EE].
  - destruct R0 as (G & A & U & R & M & SH). cbn in R. specialize (AT R).
    exists 0%nat, None, (mkRestore true (pPos p) (pErrors p) :: rs), (setQueue true (pQueue p) (pPos p) p). split.
    { intros f _. cbn [cstep]. unfold makeRestore. rewrite R. reflexivity. }
    split; [|cbn; repeat split; auto; discriminate].
    split; [split; [discriminate|apply G]|]. split; [exact A|]. split; [exact U|]. split; [reflexivity|]. split.
    + constructor; [|exact M]. cbn. split; [exact U|]. split; [apply G|]. split; [lia|exact EE].
    + destruct rs as [|r0 rs]; [inversion M|]. cbn. split; [reflexivity|]. split; [lia|exact SH].
  - destruct R0 as (G & A & U & R & M & SH). inversion M as [|? r0 ? rs' M1 M2]; subst. cbn in R.
    exists 0%nat, None, (r0 :: rs'), (backtrack r0 p). split; [intros f _; reflexivity|]. destruct M1 as (U1 & L1 & N1 & E1).
    split; [|cbn; repeat split; auto; discriminate].
    split; [split; [cbn; congruence|exact L1]|]. split; [exact eq_refl|]. split; [exact U1|]. split; [exact R|]. split; [|exact SH].
    constructor; [cbn; auto|]. exact M2.
  - destruct R0 as (G & A & U & R & M & SH). inversion M as [|? r0 ? rs' M1 M2]; subst. cbn in R. destruct M1 as (U1 & L1 & N1 & E1).
    destruct rs' as [|r1 rs'].
    + destruct SH as [W0 P0]. inversion M2; subst ms.
      exists 0%nat, l, [], (setQueue false (skipn (pPos p) (pQueue p)) 0 p). split.
      { intros f _. cbn [cstep]. unfold cancel, errorOccurred. rewrite E1, Nat.eqb_refl, P0, W0. reflexivity. }
      split; [|cbn; repeat split; auto; try discriminate; intros t _ X; cbn in X; discriminate].
      split; [split; [reflexivity|cbn; lia]|]. split; [reflexivity|]. split; [exact U|]. split; [reflexivity|]. split; constructor.
    + destruct SH as (W0 & P0 & SH). destruct ms as [|m1 ms]; [inversion M2|].
      exists 0%nat, l, (r1 :: rs'), (setQueue true (pQueue p) (pPos p) p). split.
      { intros f _. cbn [cstep]. unfold cancel, errorOccurred. rewrite E1, Nat.eqb_refl, W0.
        destruct (rPos r0) eqn:X; [lia|]. reflexivity. }
      split; [|cbn; repeat split; auto; intros t X Y; exact (CP t X R)].
      split; [split; [discriminate|apply G]|]. split; [reflexivity|]. split; [exact U|]. split; [reflexivity|]. split; [exact M2|exact SH].
  - destruct R0 as (G & A & U & R & M & SH). cbn in R. eexists 0%nat, last, rs, _. split; [intros f _; reflexivity|].
    unfold report. rewrite R. rewrite EM. cbn [orb].
    split; [|cbn; rewrite app_length; cbn; repeat split; auto; try lia; try discriminate; intros t _ X; cbn in X; discriminate].
    split; [unfold good in *; cbn; rewrite R in G; exact G|]. split; [exact A|]. split; [exact U|]. split; [reflexivity|]. split; [exact M|exact SH].
  - destruct R0 as (G & A & U & R & M & SH). cbn in R. eexists 0%nat, last, rs, _. split; [intros f _; reflexivity|].
    unfold report. rewrite R.
    split; [|cbn; repeat split; auto; try (intros t X Y; exact (CP t X R))].
    split; [split; [discriminate|apply G]|]. split; [exact A|]. split; [exact U|]. split; [reflexivity|]. split; [exact M|exact SH].
Qed.
Theorem restore_points angles a cs o a' : asteps next angles a cs o a' -> forall last rs p, rel angles a last rs p ->
  exists n q, (forall f, (n <= f)%nat -> crun next f cs last rs p = Some (o, q)) /\ exists last' rs', rel angles a' last' rs' q.
Proof.
  intros H. induction H as [a|a c o a1 cs o' a2 H _ IH]; intros last rs p R.
  - exists 0%nat, p. split; [reflexivity|]. now exists last, rs.
  - destruct (step_rel _ _ _ _ _ _ _ _ H R) as (n & last1 & rs1 & q & E & R1).
    destruct (IH last1 rs1 q R1) as (m & q' & E' & R'). exists (n + m)%nat, q'. split; [|exact R'].
    intros f Hf. cbn [crun]. rewrite (E f) by lia. now rewrite (E' f) by lia.
Qed.
End Proofs.
