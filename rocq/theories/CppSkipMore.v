(* Reading ahead and skipping: closing a scope, and the tokenizer of C77 below. *)
From Coq Require Import Lia ZifyBool ZifyNat.
From Coq Require Import String.
From Verif Require Import Txt CppTokModel CppTokSpec CppTokProofs CppTokLoc CppSkipModel CppSkipSpec CppSkipProofs.
Local Open Scope string_scope.
Local Open Scope list_scope.
Local Open Scope Z_scope.
Local Notation length := List.length.

Section More.
Context {S : Type} (next : bool -> S -> option (token * S)).
Local Notation parser := (parser S).

(** ** Muting *)
Definition muting (p q : parser) : Prop :=
  pRestore q = pRestore p /\ (pRestore p = true -> pMute q = pMute p) /\ (pMute p = true -> pMute q = true).
Lemma muting_refl p : muting p p. Proof. repeat split; auto. Qed.
Lemma muting_trans p q r : muting p q -> muting q r -> muting p r.
Proof. intros (H1 & H2 & H3) (H4 & H5 & H6). unfold muting. rewrite H4, H1. repeat split; auto. intros X. rewrite H5 by congruence. auto. Qed.
Lemma readRaw_muting p t q : readRaw next p = Some (t, q) -> muting p q.
Proof.
  unfold readRaw. intros H. destruct (nth_error _ _) as [t0|].
  - destruct (pRestore p) eqn:R; [|destruct (pPos p); [|discriminate]]; injection H as _ <-; unfold muting; cbn; rewrite R; auto.
  - destruct (next _ _) as [[t0 s]|]; [|discriminate]. destruct (pRestore p) eqn:R; injection H as _ <-; unfold muting; cbn; rewrite ?R; auto.
Qed.
Lemma read_muting : forall f p t q, read next f p = Some (t, q) -> muting p q.
Proof.
  induction f as [|f IH]; intros p t q; cbn [read]; [discriminate|]. destruct (readRaw next p) as [[t0 q0]|] eqn:E; [|discriminate].
  apply readRaw_muting in E. destruct (isAside _).
  - intros X. apply IH in X. eapply muting_trans; [exact E|]. exact X.
  - intros X. injection X as _ <-. exact E.
Qed.
Lemma pushBack_muting t p q : pushBack t p = Some q -> muting p q.
Proof.
  unfold pushBack. destruct (pPos p).
  - intros X. injection X as <-. unfold muting. cbn. auto.
  - destruct (nth_error _ _); [|discriminate]. destruct (tokenEqb _ _); [|discriminate]. intros X. injection X as <-. unfold muting. cbn. auto.
Qed.
Lemma okToStay_muting t p b q : okToStay t p = Some (b, q) -> muting p q.
Proof.
  unfold okToStay. destruct (accepts _ _).
  - destruct (pushBack t p) eqn:E; [|discriminate]. intros X. injection X as _ <-. exact (pushBack_muting _ _ _ E).
  - intros X. injection X as _ <-. apply muting_refl.
Qed.
Lemma report_muting b e (p : parser) : muting p (report b e p).
Proof.
  unfold muting, report. destruct (pRestore p) eqn:R; cbn; rewrite ?R; [auto|]. split; [reflexivity|]. split; [discriminate|]. intros ->. reflexivity.
Qed.
Lemma skipLoop_muting : forall f open close p r q, skipLoop next f open close p = Some (r, q) -> muting p q.
Proof.
  induction f as [|f IH]; intros open close p r q; cbn [skipLoop]; [discriminate|].
  destruct (read next f p) as [[t q0]|] eqn:E; [|discriminate]. apply read_muting in E.
  destruct (ttypeEqb _ _); [intros X; injection X as _ <-; exact E|].
  destruct (okToStay t q0) as [[b q1]|] eqn:O; [|discriminate]. apply okToStay_muting in O. pose proof (muting_trans _ _ _ E O) as EO.
  destruct b.
  - destruct (match tokType t with OpenAngle => pAngles q1 | OpenCurly | OpenParen | OpenSquare => true | _ => false end).
    + destruct (closeOf _) as [c|]; [|discriminate]. destruct (scopeFlags _ _) as [[a g]|]; [|discriminate].
      destruct (skipLoop next f t c _) as [[r1 q2]|] eqn:K; [|discriminate]. apply IH in K. intros X. apply IH in X.
      eapply muting_trans; [exact EO|]. eapply muting_trans; [exact K|]. exact X.
    + intros X. apply IH in X. exact (muting_trans _ _ _ EO X).
  - intros X. injection X as _ <-. eapply muting_trans; [exact EO|]. apply report_muting.
Qed.
Lemma skip_muting f open p r q : skipAnyScope next f open p = Some (r, q) -> muting p q.
Proof.
  unfold skipAnyScope. destruct (closeOf _) as [c|]; [|discriminate]. destruct (scopeFlags _ _) as [[a g]|]; [|discriminate].
  destruct (skipLoop next f open c _) as [[r1 q2]|] eqn:K; [|discriminate]. apply skipLoop_muting in K. intros X. injection X as _ <-. exact K.
Qed.

(** ** Closing a scope *)
Lemma never_unclosed f open p x q : pRestore p = true -> pMute p = false -> closeScope next f open p <> Some (false, x, q).
Proof.
  intros R M. unfold closeScope. destruct (read next f p) as [[t q0]|] eqn:E; [|discriminate]. apply read_muting in E as (E1 & E2 & _).
  destruct (match closeOf _ with Some _ => _ | None => _ end); [discriminate|].
  assert (H : match pushBack t (report true (Expected t) q0) with
            | None => None
            | Some q =>
                match skipAnyScope next f open q with
                | None => None
                | Some (None, q) => if pMute q then Some (false, None, q) else None
                | Some (Some _, q) => Some (true, None, setMute false q)
                end
            end <> Some (false, x, q)).
  { destruct (pushBack _ _) as [q1|] eqn:P; [|discriminate]. apply pushBack_muting in P as (P1 & P2 & _).
    pose proof (report_muting true (Expected t) q0) as (R1 & R2 & _).
    destruct (skipAnyScope next f open q1) as [[r q2]|] eqn:K; [|discriminate]. apply skip_muting in K as (K1 & K2 & _).
    destruct r; [discriminate|]. rewrite K2, P2, R2, E2 by congruence. rewrite M. discriminate. }
  destruct (tokType open); try discriminate; exact H.
Qed.
Theorem closing_ends k open c p : ends next k (up p) -> good p -> pRestore p = false -> pair (tokType open) c ->
  tokType open = OpenParen \/ tokType open = OpenSquare ->
  exists n b x q, (forall f, (n <= f)%nat -> closeScope next f open p = Some (b, x, q)) /\ good q /\ same p q /\
    (forall t, x = Some t -> tokType t = c) /\
    (b = false -> pMute q = true /\ forall angles, exists t u, pull next angles (up q) t u /\
       (tokType t = EndOfFile \/ (accepts (pAccept p) (tokType t) = true /\ tokType t <> c))).
Proof.
  intros E G R PR K. destruct (ends_pull next (pAngles p) k (up p) E) as (t & u' & P & D).
  destruct (read_pull next p t u' G P) as (n & q & RD & Uq & Gq & Sq & _ & Cq).
  assert (CL : closeOf (tokType open) = Some c) by (destruct (pair_close _ _ PR) as (X & _); exact X).
  destruct (ttypeEqb (tokType t) c) eqn:TC.
  { exists n, true, (Some t), q. split; [intros f Hf; unfold closeScope; now rewrite (RD f Hf), CL, TC|]. split; [exact Gq|]. split; [exact Sq|].
    split; [|discriminate]. intros t' X. injection X as <-. unfold ttypeEqb in TC. destruct (ttype_eq_dec _ _); [assumption|discriminate]. }
  set (q0 := report true (Expected t) q).
  assert (RQ : pRestore q = false) by (destruct Sq as (<- & _); exact R).
  assert (X : up q0 = up q /\ good q0 /\ same q q0 /\ pMute q0 = true).
  { unfold q0, report. rewrite RQ. split; [reflexivity|]. split; [destruct Gq as [Y1 Y2]; split; [intros _; exact (Y1 RQ)|exact Y2]|].
    split; [unfold same; cbn; rewrite RQ; auto|]. cbn. apply orb_true_r. }
  destruct X as (X1 & X2 & X3 & X4).
  assert (RQ0 : pRestore q0 = false) by (destruct X3 as (<- & _); exact RQ).
  destruct (pushBack_ok t q0 X2 ltac:(intros Y; congruence)) as (q1 & PB & U1 & G1 & S1 & (_ & Q1 & _)).
  assert (E1 : exists k1, ends next k1 (up q1)).
  { rewrite U1, X1, Uq. destruct D as [[T O]|(T & k1 & _ & E1)].
    - exists 0%nat. apply over_ends. destruct O as [O1 O2]. split; [constructor; assumption|exact O2].
    - exists (Datatypes.S k1). now apply ends_push. }
  destruct E1 as (k1 & E1).
  destruct (skipping_ends next k1 open c q1 E1 G1 PR) as (m & r & q2 & SK & G2 & S2 & _ & RC & RN).
  assert (SA : same p q2) by exact (same_trans _ _ _ Sq (same_trans _ _ _ X3 (same_trans _ _ _ S1 S2))).
  assert (AC : pAccept q1 = pAccept p) by (destruct (same_trans _ _ _ Sq (same_trans _ _ _ X3 S1)) as (_ & -> & _); reflexivity).
  assert (M2 : pMute q2 = true).
  { destruct (skip_muting _ _ _ _ _ (SK m (Nat.le_refl m))) as (_ & _ & H). apply H. rewrite <- Q1. exact X4. }
  assert (CS : forall f, (n + m <= f)%nat -> closeScope next f open p =
     match r with None => Some (false, None, q2) | Some _ => Some (true, None, setMute false q2) end).
  { intros f Hf. unfold closeScope. rewrite (RD f) by lia. rewrite CL, TC. fold q0. rewrite PB, (SK f) by lia.
    destruct K as [-> | ->]; destruct r; rewrite ?M2; reflexivity. }
  destruct r as [t2|].
  - exists (n + m)%nat, true, None, (setMute false q2). split; [exact CS|]. split; [exact G2|]. split; [exact SA|]. split; discriminate.
  - exists (n + m)%nat, false, None, q2. split; [exact CS|]. split; [exact G2|]. split; [exact SA|]. split; [discriminate|]. intros _. split; [exact M2|].
    rewrite AC in RN. exact (RN eq_refl).
Qed.
End More.

(** ** Over the tokenizer *)
Lemma call_eof ang p x : call ang p x -> forall t q, x = Got t q -> tokType t = EndOfFile -> ppStack q = [].
Proof.
  intros H. induction H as
    [p last HS|p it x HS HR _ IH|p it up below x HS HR _ IH|p it below c r rest b e u x HS HR Eu Nu _ IH
    |p it below r HS HR|p it below rest b u t errs args HS HR Nu NE
    |p it below rest b u v m errs args HS HR Nu Hm Hn loc]; intros t' q' E T; try (exact (IH _ _ E T)).
  - injection E as <- <-. exact HS.
  - discriminate.
  - injection E as <- <-. cbn in T. congruence.
  - injection E as <- <-. cbn in T. discriminate.
Qed.
Lemma stack_over q : ppStack q = [] -> over tokens ([], q).
Proof.
  intros HS. split; [constructor|]. intros angles. cbn [snd]. unfold tokens. pose proof (readToken_call angles q) as C.
  inversion C; try congruence. eexists. split; reflexivity.
Qed.
Lemma tokens_end : forall n p, (mu p <= n)%nat -> endInv p -> ends tokens n ([], p).
Proof.
  induction n as [|n IH]; intros p M I; cbn [ends]; intros angles; pose proof (readToken_call angles p) as C;
    destruct (call_ends _ _ _ C I) as (t & q & E & Iq & D); exists t, ([], q);
    (split; [apply pr_next; unfold tokens; now rewrite E|]);
    destruct (ttype_eq_dec (tokType t) EndOfFile) as [T|T];
    try (left; split; [exact T|]; apply stack_over; exact (call_eof _ _ _ C t q E T));
    right; (split; [exact T|]); (destruct D as [D|D]; [congruence|]); [lia|]. apply IH; [lia|exact Iq].
Qed.
Theorem file_ends ms file : flat ms -> (forall m, In m ms -> rawFree (mText m)) -> rawFree file ->
  exists k, ends tokens k ([], start ms file).
Proof.
  intros F R RF. exists (mu (start ms file)). apply tokens_end; [lia|]. split; [exact F|]. split; [exact R|]. exact RF.
Qed.
