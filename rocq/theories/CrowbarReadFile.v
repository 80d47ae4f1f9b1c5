(* Written scripts are read as what was written. *)
From Coq Require Import Lia ZifyBool ZifyNat.
From Verif Require Import CrowbarParse CrowbarText CrowbarTok CrowbarEnds CrowbarRead StringViewProofs.

Definition stmtTo src s rest := exists k, pStmt k src = Ok s rest.
Definition bodyTo src b rest := exists k, pBody k src = Ok b rest.
Definition itemsTo acc src b rest := exists k, pItems k acc src = Ok b rest.

Lemma stmt_more k k' src e r : (k <= k')%nat -> pStmt k src = Ok e r -> pStmt k' src = Ok e r.
Proof. intros L H. apply (more (fun k => pStmt k src)) with k; auto; [intros; apply stmt_deeper|discriminate]. Qed.
Lemma body_more k k' src e r : (k <= k')%nat -> pBody k src = Ok e r -> pBody k' src = Ok e r.
Proof. intros L H. apply (more (fun k => pBody k src)) with k; auto; [intros; apply stmt_deeper|discriminate]. Qed.
Lemma items_more k k' acc src e r : (k <= k')%nat -> pItems k acc src = Ok e r -> pItems k' acc src = Ok e r.
Proof. intros L H. apply (more (fun k => pItems k acc src)) with k; auto; [intros; apply stmt_deeper|discriminate]. Qed.
Lemma params_more k k' acc src e r : (k <= k')%nat -> pParams k acc src = Ok e r -> pParams k' acc src = Ok e r.
Proof. intros L H. apply (more (fun k => pParams k acc src)) with k; auto; [intros; apply params_deeper|discriminate]. Qed.
Lemma fn_more k k' src e r : (k <= k')%nat -> pFn k src = Ok e r -> pFn k' src = Ok e r.
Proof. intros L H. apply (more (fun k => pFn k src)) with k; auto; [intros; apply fn_deeper|discriminate]. Qed.
Lemma file_more k k' acc src e r : (k <= k')%nat -> pFile k acc src = Ok e r -> pFile k' acc src = Ok e r.
Proof. intros L H. apply (more (fun k => pFile k acc src)) with k; auto; [intros; apply file_deeper|discriminate]. Qed.
#[local] Hint Resolve max_l max_r : core.

(** ** Tokens with and without ends of lines *)
Definition sameToken (x y : tok * list Z * list Z) : Prop :=
  (fst (fst x) <> TNewLine -> y = x) /\ readTok false Between (snd (fst x)) = y.
Lemma modes src : forall m, sameToken (readTok true m src) (readTok false m src).
Proof.
  induction src as [src IH] using list_strong. intros m.
  destruct src as [|c r]; [destruct m; split; reflexivity|].
  assert (Btw : sameToken (readTok true Between (c :: r)) (readTok false Between (c :: r))).
  { assert (Self : forall t r', readTok false Between (c :: r) = (t, c :: r, r') ->
      sameToken (t, c :: r, r') (readTok false Between (c :: r))) by (intros t r' E; split; auto).
    assert (Line : forall r', sameToken (TNewLine, c :: r, r') (readTok false Between (c :: r)))
      by (intros r'; split; cbn [fst snd]; [congruence|reflexivity]).
    assert (Sub : forall m' r', (length r' < length (c :: r))%nat -> readTok false Between (c :: r) = readTok false m' r' ->
      sameToken (readTok true m' r') (readTok false Between (c :: r))) by (intros m' r' L ->; apply IH; exact L).
    remember (readTok false Between (c :: r)) as y eqn:Ey in Self, Line, Sub |- *. pose proof Ey as E. cbn [readTok] in E. revert E.
    cbn [readTok]. unfold oneOrTwo.
    destruct (identStart c). { destruct (span identChar r). intros E. apply Self. exact E. }
    destruct (isDigit c). { destruct (span isDigit r). intros E. apply Self. exact E. }
    branch; intros E; first [ apply Line | apply Self; exact E | apply Sub; [cbn; lia | exact E] ]. }
  destruct m; auto.
  - cbn [readTok] in Btw |- *. destruct (c =? 10); [exact Btw|]. apply IH. cbn. lia.
  - cbn [readTok]. destruct (star && (c =? 47)); apply IH; cbn; lia.
Qed.
Lemma token_modes src t st r : token true src = (t, st, r) -> t <> TNewLine -> token false src = (t, st, r).
Proof. intros T N. destruct (modes src Between) as [M _]. unfold token in *. rewrite T in M. auto. Qed.
Lemma token_skip src t st r : token true src = (t, st, r) -> token false st = token false src.
Proof. intros T. destruct (modes src Between) as [_ M]. unfold token in *. rewrite T in M. exact M. Qed.
Lemma same_skip src src' : token true src' = token true src -> token false src' = token false src.
Proof.
  intros T. destruct (token true src) as [[t st] r] eqn:E. apply token_skip in E. apply token_skip in T. congruence.
Qed.
Lemma gap_weaken g : gap true g -> gap false g.
Proof.
  induction 1 as [|c g B G IH|t g N G IH|g E G IH|t g E N G IH]; try discriminate.
  - constructor.
  - apply gap_blank; auto.
  - apply gap_comment; auto.
Qed.
Lemma eol_gap l : eol l -> gap false l.
Proof.
  intros [|t N].
  - apply gap_newline; [reflexivity|constructor].
  - apply (gap_line false t []); auto. constructor.
Qed.
Lemma eol_apart l s : eol l -> apart (l ++ s).
Proof. intros [|t N]; apart_tac. Qed.
Lemma apart_app s t : apart s -> apart t -> apart (s ++ t).
Proof. destruct s; auto. Qed.
Lemma keyword_token nl w s : In w [k_if; k_while; k_else; k_return; k_fn] -> apart s -> token nl (w ++ s) = (TIdent w, w ++ s, s).
Proof.
  intros I A. apply word_token; auto. cbn in I.
  destruct I as [<-|[<-|[<-|[<-|[<-|[]]]]]]; (split; [unfold letter; lia|]); repeat constructor; unfold letter; lia.
Qed.

(** ** One step of each parser *)
Lemma items_start acc src src' b r : token true src' = token true src -> itemsTo acc src b r -> itemsTo acc src' b r.
Proof. intros T [k H]. exists k. destruct k; [discriminate|]. cbn [pItems] in *. rewrite T. exact H. Qed.
Lemma stmt_start src src' s r : token true src' = token true src -> stmtTo src s r -> stmtTo src' s r.
Proof. intros T [k H]. exists k. destruct k; [discriminate|]. cbn [pStmt] in *. rewrite T. exact H. Qed.
Lemma body_start src src' s r : token false src' = token false src -> bodyTo src s r -> bodyTo src' s r.
Proof. intros T [k H]. exists k. destruct k; [discriminate|]. cbn [pBody] in *. rewrite T. exact H. Qed.
Lemma I_end acc src st rest : token true src = (TRCurly, st, rest) -> itemsTo acc src acc rest.
Proof. intros T. exists 1%nat. cbn [pItems]. rewrite T. reflexivity. Qed.
Lemma I_skip acc src t st rest b r : token true src = (t, st, rest) -> t = TNewLine \/ t = TSemi ->
  itemsTo acc rest b r <-> itemsTo acc src b r.
Proof.
  intros T N. split; intros [k H].
  - exists (S k). cbn [pItems]. rewrite T. destruct N as [-> | ->]; exact H.
  - destruct k; [discriminate|]. cbn [pItems] in H. rewrite T in H. exists k. destruct N as [-> | ->]; exact H.
Qed.
Definition initial (t : tok) : Prop :=
  match t with TIdent _ | TNum _ | TBegin | TLParen | TMinus | TBang | TTilde => True | _ => False end.
Lemma begins_initial t : begins t -> initial t.
Proof. destruct t; cbn; auto. Qed.
Lemma I_stmt acc src t st rest s src' b r : token true src = (t, st, rest) -> initial t -> stmtTo src s src' ->
  itemsTo (acc ++ [s]) src' b r -> itemsTo acc src b r.
Proof.
  intros T N H [k2 H2]. apply (stmt_start src st) in H; [|rewrite T; eapply token_start; eauto].
  destruct H as [k1 H1].
  exists (S (k1 + k2)). cbn [pItems]. rewrite T. apply (stmt_more k1 (k1 + k2) _ _ _ ltac:(auto)) in H1.
  apply (items_more k2 (k1 + k2) _ _ _ _ ltac:(auto)) in H2.
  destruct t; try contradiction; rewrite H1; exact H2.
Qed.
Lemma B_block src st rest b r : token false src = (TLCurly, st, rest) -> itemsTo [] rest b r -> bodyTo src b r.
Proof. intros T [k H]. exists (S k). cbn [pBody]. rewrite T. exact H. Qed.
Lemma B_return src n st rest e r : token false src = (TIdent n, st, rest) -> stmtTo st (SReturn e) r -> bodyTo src [SReturn e] r.
Proof. intros T [k H]. exists (S k). cbn [pBody]. rewrite T, H. reflexivity. Qed.
Lemma M_if src st rest c s1 b s2 t st2 r2 : token true src = (TIdent k_if, st, rest) -> exprTo true anyLevel rest c s1 ->
  bodyTo s1 b s2 -> token false s2 = (t, st2, r2) -> t <> TIdent k_else -> stmtTo src (SIf c b None) st2.
Proof.
  intros T [k1 H1] [k2 H2] T2 N. exists (S (k1 + k2)). cbn [pStmt]. rewrite T.
  change (bytes_eqb k_if k_if) with true. cbv iota.
  rewrite (expr_more k1 (k1 + k2) _ _ _ _ _ ltac:(auto) H1). cbn [pbind]. rewrite (body_more k2 (k1 + k2) _ _ _ ltac:(auto) H2).
  cbn [pbind]. rewrite T2. destruct t; auto. destruct (bytes_eqb n k_else) eqn:E; auto. apply bytes_eqb_eq in E. congruence.
Qed.
Lemma M_else src st rest c s1 b s2 st2 r2 b' s3 : token true src = (TIdent k_if, st, rest) -> exprTo true anyLevel rest c s1 ->
  bodyTo s1 b s2 -> token false s2 = (TIdent k_else, st2, r2) -> bodyTo r2 b' s3 -> stmtTo src (SIf c b (Some b')) s3.
Proof.
  intros T [k1 H1] [k2 H2] T2 [k3 H3]. exists (S (k1 + k2 + k3)). cbn [pStmt]. rewrite T.
  change (bytes_eqb k_if k_if) with true. cbv iota.
  rewrite (expr_more k1 (k1 + k2 + k3) _ _ _ _ _ ltac:(lia) H1). cbn [pbind]. rewrite (body_more k2 (k1 + k2 + k3) _ _ _ ltac:(lia) H2).
  cbn [pbind]. rewrite T2. change (bytes_eqb k_else k_else) with true. cbv iota.
  rewrite (body_more k3 (k1 + k2 + k3) _ _ _ ltac:(lia) H3). reflexivity.
Qed.
Lemma M_while src st rest c s1 b s2 : token true src = (TIdent k_while, st, rest) -> exprTo true anyLevel rest c s1 ->
  bodyTo s1 b s2 -> stmtTo src (SWhile c b) s2.
Proof.
  intros T [k1 H1] [k2 H2]. exists (S (k1 + k2)). cbn [pStmt]. rewrite T.
  change (bytes_eqb k_while k_if) with false. change (bytes_eqb k_while k_while) with true. cbv iota.
  rewrite (expr_more k1 (k1 + k2) _ _ _ _ _ ltac:(auto) H1). cbn [pbind]. rewrite (body_more k2 (k1 + k2) _ _ _ ltac:(auto) H2). reflexivity.
Qed.
Lemma M_return src st rest e s1 : token true src = (TIdent k_return, st, rest) -> exprTo true anyLevel rest e s1 ->
  stmtTo src (SReturn e) s1.
Proof.
  intros T [k1 H1]. exists (S k1). cbn [pStmt]. rewrite T.
  change (bytes_eqb k_return k_if) with false. change (bytes_eqb k_return k_while) with false.
  change (bytes_eqb k_return k_return) with true. cbv iota. rewrite H1. reflexivity.
Qed.
(** Statements that are not known by a keyword. *)
Lemma begins_words t : begins t -> let w := match t with TIdent n => n | _ => [] end in
  bytes_eqb w k_if = false /\ bytes_eqb w k_while = false /\ bytes_eqb w k_return = false.
Proof.
  destruct t; cbn [begins]; auto. intros N.
  assert (E : forall k, In k [k_if; k_while; k_else; k_return] -> bytes_eqb n k = false).
  { intros k I. destruct (bytes_eqb n k) eqn:E; auto. apply bytes_eqb_eq in E. congruence. }
  repeat split; apply E; cbn; auto.
Qed.
Lemma M_assign src t st rest l s1 st1 s2 r s3 s4 : token true src = (t, st, rest) -> begins t -> exprTo true anyLevel src l s1 ->
  token true s1 = (TEqual, st1, s2) -> exprTo true anyLevel s2 r s3 -> endOfStatement (SAssign l r) s3 = Ok (SAssign l r) s4 ->
  stmtTo src (SAssign l r) s4.
Proof.
  intros T B H1 T1 [k2 H2] E. apply (expr_start true anyLevel src st) in H1; [|rewrite T; symmetry; eapply token_start; eauto].
  destruct H1 as [k1 H1]. exists (S (k1 + k2)). cbn [pStmt]. rewrite T. cbv zeta.
  destruct (begins_words t B) as (-> & -> & ->).
  rewrite (expr_more k1 (k1 + k2) _ _ _ _ _ ltac:(auto) H1). cbn [pbind]. rewrite T1.
  rewrite (expr_more k2 (k1 + k2) _ _ _ _ _ ltac:(auto) H2). exact E.
Qed.
Lemma M_eval src t st rest l s1 t1 st1 r1 s4 : token true src = (t, st, rest) -> begins t -> exprTo true anyLevel src l s1 ->
  token true s1 = (t1, st1, r1) -> t1 <> TEqual -> endOfStatement (SEval l) st1 = Ok (SEval l) s4 -> stmtTo src (SEval l) s4.
Proof.
  intros T B H1 T1 N E. apply (expr_start true anyLevel src st) in H1; [|rewrite T; symmetry; eapply token_start; eauto].
  destruct H1 as [k1 H1]. exists (S k1). cbn [pStmt]. rewrite T. cbv zeta.
  destruct (begins_words t B) as (-> & -> & ->).
  rewrite H1. cbn [pbind]. rewrite T1. destruct t1; auto. congruence.
Qed.

(** ** The ends of statements *)
Definition ends src : Prop := apart src /\ exists t st r, token true src = (t, st, r) /\ (t = TNewLine \/ t = TSemi \/ t = TRCurly).
Definition resume src src' : Prop := forall acc b r, itemsTo acc src b r -> itemsTo acc src' b r.
Lemma block_ends sep b t rest : spells_block sep b t -> sep = true -> ends (t ++ rest).
Proof.
  destruct 1 as [sep g G|sep g l b t G E K|sep g b t G K| |]; intros Q; try discriminate; rewrite <- !app_assoc; split;
    try (apply gap_apart with true; auto; try apart_tac; apply eol_apart; auto); rewrite gap_skip by exact G.
  - do 3 eexists. split; [reflexivity|]. auto.
  - rewrite eol_token by exact E. do 3 eexists. split; [reflexivity|]. auto.
  - do 3 eexists. split; [reflexivity|]. auto.
Qed.
Lemma end_resume s src : ends src -> forall st, token true st = token true src -> exists src', endOfStatement s st = Ok s src' /\ resume src src'.
Proof.
  intros (_ & t & st & r & T & N) st' T'. unfold endOfStatement. rewrite T', T. destruct N as [->|[->| ->]].
  - exists r. split; auto. intros acc b r' H. eapply I_skip; eauto.
  - exists r. split; auto. intros acc b r' H. eapply I_skip; eauto.
  - exists st. split; auto. intros acc b r' H. eapply items_start; [|exact H]. rewrite T. eapply token_start; eauto.
Qed.
Lemma ends_halt src : ends src -> exists t st r, token true src = (t, st, r) /\ halts anyLevel t.
Proof.
  intros (_ & t & st & r & T & N). exists t, st, r. split; auto.
  destruct N as [->|[->| ->]]; repeat split; discriminate.
Qed.
Lemma in_place_true lvl tail e s rest t st r : spells true lvl tail e s -> apart rest -> token true rest = (t, st, r) -> halts anyLevel t ->
  exprTo true anyLevel (s ++ rest) e st.
Proof.
  intros S A T P. eapply in_place; eauto; [|eapply spells_level; eauto].
  exact (proj1 spells_read _ _ _ _ _ S).
Qed.

Lemma simple_read s st : spells_simple s st -> forall src, ends src -> exists src', stmtTo (st ++ src) s src' /\ resume src src'.
Proof.
  intros H src E. destruct (ends_halt src E) as (te & ste & re & Te & Pe). pose proof (proj1 E) as Ap.
  destruct H as [lvl tail l s g lvl' tail' r t S G S'|lvl tail e s S|g lvl tail e s G S A]; rewrite <- ?app_assoc; cbn [app]; rewrite <- ?app_assoc.
  - destruct (spells_head _ _ _ _ _ S') as (c & t' & Et & Oc).
    assert (T : token true (g ++ 61 :: t ++ src) = (TEqual, 61 :: t ++ src, t ++ src)).
    { rewrite gap_skip by exact G. rewrite Et. unfold token. cbn. destruct Oc as [N _]. apply Z.eqb_neq in N. rewrite N. reflexivity. }
    assert (A : apart (g ++ 61 :: t ++ src)) by (apply gap_apart with true; auto; apart_tac).
    destruct (end_resume (SAssign l r) src E ste) as (src' & H1 & H2). { rewrite Te. eapply token_start; eauto. }
    exists src'. split; auto. destruct (spells_begin _ _ _ _ _ S _ A) as (t0 & st0 & r0 & T0 & B0).
    eapply M_assign; [exact T0|exact B0| | | |exact H1].
    + eapply in_place_true; [exact S|exact A|exact T|repeat split; discriminate].
    + eapply token_start. exact T.
    + eapply in_place_true; eauto.
  - destruct (end_resume (SEval e) src E ste) as (src' & H1 & H2). { rewrite Te. eapply token_start; eauto. }
    exists src'. split; auto. destruct (spells_begin _ _ _ _ _ S _ Ap) as (t0 & st0 & r0 & T0 & B0).
    eapply M_eval; [exact T0|exact B0| | | |exact H1].
    + eapply in_place_true; eauto.
    + eapply token_start. exact Te.
    + destruct E as (_ & t1 & st1 & r1 & T1 & N). rewrite Te in T1. injection T1 as <- <- <-. destruct N as [->|[->| ->]]; discriminate.
  - exists ste. split.
    + eapply M_return.
      * rewrite gap_skip by exact G. apply keyword_token; [cbn; auto|apply apart_app; auto].
      * eapply in_place_true; eauto.
    + intros acc b r' H. eapply items_start; [|exact H]. rewrite Te. eapply token_start; eauto.
Qed.

Scheme spells_control_m := Induction for spells_control Sort Prop
with spells_body_m := Induction for spells_body Sort Prop
with spells_block_m := Induction for spells_block Sort Prop.
Combined Scheme spells_control_mutual from spells_control_m, spells_body_m, spells_block_m.

(** The first token of a statement. *)
Lemma simple_begin s st src : spells_simple s st -> apart src ->
  exists t st' r, token true (st ++ src) = (t, st', r) /\ initial t /\ t <> TIdent k_else.
Proof.
  assert (Bg : forall lvl tail e s rest, spells true lvl tail e s -> apart rest ->
    exists t st' r, token true (s ++ rest) = (t, st', r) /\ initial t /\ t <> TIdent k_else).
  { intros lvl tail e s0 rest S A. destruct (spells_begin _ _ _ _ _ S _ A) as (t & st' & r & T & B). exists t, st', r.
    split; auto. split; [apply begins_initial; auto|]. intros ->. apply B. cbn. auto. }
  intros H A. destruct H as [lvl tail l s g lvl' tail' r t S G S'|lvl tail e s S|g lvl tail e s G S A']; rewrite <- ?app_assoc.
  - eapply Bg; [exact S|]. apply gap_apart with true; auto. apart_tac.
  - eapply Bg; eauto.
  - rewrite gap_skip by exact G. rewrite keyword_token; [|cbn; auto|apply apart_app; auto].
    do 3 eexists. split; [reflexivity|]. split; [exact I|discriminate].
Qed.
Lemma spells_app_apart lvl tail e s t : spells true lvl tail e s -> apart s -> apart (s ++ t).
Proof. intros S A. destruct (spells_head _ _ _ _ _ S) as (c & s' & -> & _). exact A. Qed.
Lemma control_begin closed s st src : spells_control closed s st ->
  exists t st' r, token true (st ++ src) = (t, st', r) /\ initial t /\ t <> TIdent k_else.
Proof.
  intros [g lvl tail c s1 cl b t G S A B|g lvl tail c s1 cl b t g' cl' b' t' G S A B G' N B'|g lvl tail c s1 cl b t G S A B];
    rewrite <- !app_assoc; rewrite gap_skip by exact G;
    (rewrite keyword_token; [|cbn; auto|eapply spells_app_apart; eauto]);
    (do 3 eexists; split; [reflexivity|]; split; [exact I|discriminate]).
Qed.
(** A block does not start with else, and ends of lines before its first token do not matter. *)
Lemma block_begin sep b t rest : spells_block sep b t ->
  exists tk st r, token false (t ++ rest) = (tk, st, r) /\ tk <> TIdent k_else /\ resume (t ++ rest) st.
Proof.
  assert (Init : forall src tk st r, token true src = (tk, st, r) -> initial tk /\ tk <> TIdent k_else ->
    exists tk st r, token false src = (tk, st, r) /\ tk <> TIdent k_else /\ resume src st).
  { intros src tk st r T [N1 N2]. exists tk, st, r. split; [apply token_modes; auto; intros ->; exact N1|]. split; auto.
    intros acc b0 r' H. eapply items_start; [|exact H]. rewrite T. eapply token_start; eauto. }
  induction 1 as [sep g G|sep g l b t G E K IH|sep g b t G K IH|s st b t S K IH|closed s st b t S K IH]; rewrite <- ?app_assoc.
  - rewrite gap_skip by (apply gap_weaken; exact G). do 3 eexists. split; [reflexivity|]. split; [discriminate|].
    intros acc b r H. eapply items_start; [|exact H]. rewrite gap_skip by exact G. reflexivity.
  - rewrite gap_skip by (apply gap_weaken; exact G). rewrite gap_skip by (apply eol_gap; exact E).
    destruct IH as (tk & st & r & T & N & R). exists tk, st, r. split; auto. split; auto.
    intros acc b0 r' H. apply R. eapply I_skip with (src := g ++ l ++ t ++ rest); [|left; reflexivity|exact H].
    rewrite gap_skip by exact G. apply eol_token. exact E.
  - rewrite gap_skip by (apply gap_weaken; exact G). do 3 eexists. split; [reflexivity|]. split; [discriminate|].
    intros acc b0 r H. eapply items_start; [|exact H]. rewrite gap_skip by exact G. reflexivity.
  - destruct (simple_begin _ _ (t ++ rest) S) as (tk & st' & r & T & N); [|eapply Init; eauto].
    apply (block_ends true b t rest K eq_refl).
  - destruct (control_begin _ _ _ (t ++ rest) S) as (tk & st' & r & T & N). eapply Init; eauto.
Qed.

Lemma body_apart closed b t src : spells_body closed b t -> apart (t ++ src).
Proof.
  intros [g b' u G K|g lvl tail e s G N S A]; rewrite <- app_assoc.
  - apply gap_apart with false; auto. apart_tac.
  - apply gap_apart_nonempty with false; auto.
Qed.
Lemma body_halt closed b t src : spells_body closed b t -> exists tk st r, token true (t ++ src) = (tk, st, r) /\ halts anyLevel tk.
Proof.
  intros [g b' u G K|g lvl tail e s G N S A]; rewrite <- !app_assoc.
  - destruct (gap_line_end g ((123 :: u) ++ src) G) as [E|(g' & G' & E)]; rewrite E; do 3 eexists; (split; [reflexivity|]); repeat split; discriminate.
  - destruct (gap_line_end g (k_return ++ s ++ src) G) as [E|(g' & G' & E)]; rewrite E.
    + rewrite keyword_token; [|cbn; auto|eapply spells_app_apart; eauto]. do 3 eexists; (split; [reflexivity|]); repeat split; discriminate.
    + do 3 eexists; (split; [reflexivity|]); repeat split; discriminate.
Qed.
(** A condition and the body after it. *)
Lemma condition lvl tail c s closed b t src : spells true lvl tail c s -> spells_body closed b t ->
  exists s1, exprTo true anyLevel (s ++ t ++ src) c s1 /\ token false s1 = token false (t ++ src).
Proof.
  intros S B. destruct (body_halt _ _ _ src B) as (tk & st & r & T & H). exists st. split.
  - eapply in_place_true; eauto. eapply body_apart; eauto.
  - eapply token_skip; eauto.
Qed.

Definition quiet src : Prop := apart src /\ exists t st r, token true src = (t, st, r) /\ halts anyLevel t.
Definition control_reads closed s st := forall src, (closed = false -> ends src) ->
  (exists tk st r, token false src = (tk, st, r) /\ tk <> TIdent k_else /\ resume src st) ->
  exists src', stmtTo (st ++ src) s src' /\ resume src src'.
Definition body_reads (closed : bool) b t := forall src, (closed = false -> quiet src) ->
  exists src', bodyTo (t ++ src) b src' /\ token true src' = token true src.
Definition block_reads b t := forall rest acc, itemsTo acc (t ++ rest) (acc ++ b) rest.

Lemma ends_quiet src : ends src -> quiet src.
Proof. intros E. split; [apply E|apply ends_halt; exact E]. Qed.
Lemma same_resume src src' : token true src' = token true src -> resume src src'.
Proof. intros T acc b r H. eapply items_start; eauto. Qed.

Theorem blocks_read :
  (forall closed s st, spells_control closed s st -> control_reads closed s st) /\
  (forall closed b t, spells_body closed b t -> body_reads closed b t) /\
  (forall sep b t, spells_block sep b t -> block_reads b t).
Proof.
  apply (spells_control_mutual (fun closed s st _ => control_reads closed s st) (fun closed b t _ => body_reads closed b t)
    (fun sep b t _ => block_reads b t)).
  - intros g lvl tail c s closed b t G S A B IH src E (tk & st & r & T & N & R). rewrite <- !app_assoc.
    destruct (condition _ _ _ _ _ _ _ src S B) as (s1 & H1 & T1).
    destruct (IH src) as (s2 & H2 & T2). { intros C. apply ends_quiet. auto. }
    exists st. split; auto. eapply M_if.
    + rewrite gap_skip by exact G. apply keyword_token; [cbn; auto|eapply spells_app_apart; eauto].
    + exact H1.
    + eapply body_start; [|exact H2]. exact T1.
    + rewrite (same_skip _ _ T2). exact T.
    + exact N.
  - intros g lvl tail c s closed b t g' closed' b' t' G S A B IH G' Ng B' IH' src E R. rewrite <- !app_assoc.
    set (next := g' ++ k_else ++ t' ++ src).
    assert (Tf : token false next = (TIdent k_else, k_else ++ t' ++ src, t' ++ src)).
    { unfold next. rewrite gap_skip by exact G'. apply keyword_token; [cbn; auto|eapply body_apart; eauto]. }
    destruct (condition _ _ _ _ _ _ _ next S B) as (s1 & H1 & T1).
    destruct (IH next) as (s2 & H2 & T2).
    { intros C. split; [apply gap_apart_nonempty with false; auto|]. unfold next.
      destruct (gap_line_end g' (k_else ++ t' ++ src) G') as [Eg|(g2 & G2 & Eg)]; rewrite Eg.
      - rewrite keyword_token; [|cbn; auto|eapply body_apart; eauto]. do 3 eexists; (split; [reflexivity|]); repeat split; discriminate.
      - do 3 eexists; (split; [reflexivity|]); repeat split; discriminate. }
    destruct (IH' src) as (s3 & H3 & T3). { intros C. apply ends_quiet. auto. }
    exists s3. split; [|apply same_resume; exact T3]. eapply M_else.
    + rewrite gap_skip by exact G. apply keyword_token; [cbn; auto|eapply spells_app_apart; eauto].
    + exact H1.
    + eapply body_start; [|exact H2]. exact T1.
    + rewrite (same_skip _ _ T2). exact Tf.
    + exact H3.
  - intros g lvl tail c s closed b t G S A B IH src E R. rewrite <- !app_assoc.
    destruct (condition _ _ _ _ _ _ _ src S B) as (s1 & H1 & T1).
    destruct (IH src) as (s2 & H2 & T2). { intros C. apply ends_quiet. auto. }
    exists s2. split; [|apply same_resume; exact T2]. eapply M_while.
    + rewrite gap_skip by exact G. apply keyword_token; [cbn; auto|eapply spells_app_apart; eauto].
    + exact H1.
    + eapply body_start; [|exact H2]. exact T1.
  - intros g b t G K IH src _. rewrite <- app_assoc. exists src. split; auto. eapply B_block.
    + rewrite gap_skip by exact G. reflexivity.
    + apply (IH src []).
  - intros g lvl tail e s G N S A src Q. destruct (Q eq_refl) as (Ap & tk & st & r & T & H). rewrite <- !app_assoc.
    exists st. split; [|rewrite T; eapply token_start; eauto].
    assert (Tr : forall nl, token nl (k_return ++ s ++ src) = (TIdent k_return, k_return ++ s ++ src, s ++ src)).
    { intros nl. apply keyword_token; [cbn; auto|eapply spells_app_apart; eauto]. }
    eapply B_return.
    + rewrite gap_skip by exact G. apply Tr.
    + eapply M_return; [apply Tr|]. eapply in_place_true; eauto.
  - intros sep g G rest acc. rewrite <- app_assoc, app_nil_r. eapply I_end. rewrite gap_skip by exact G. reflexivity.
  - intros sep g l b t G E K IH rest acc. rewrite <- !app_assoc.
    assert (T : token true (g ++ l ++ t ++ rest) = (TNewLine, 10 :: t ++ rest, t ++ rest))
      by (rewrite gap_skip by exact G; apply eol_token; exact E).
    apply (proj1 (I_skip _ _ _ _ _ _ _ T (or_introl eq_refl))). apply IH.
  - intros sep g b t G K IH rest acc. rewrite <- !app_assoc.
    assert (T : token true (g ++ (59 :: t) ++ rest) = (TSemi, 59 :: t ++ rest, t ++ rest))
      by (rewrite gap_skip by exact G; reflexivity).
    apply (proj1 (I_skip _ _ _ _ _ _ _ T (or_intror eq_refl))). apply IH.
  - intros s st b t S K IH rest acc. rewrite <- app_assoc.
    assert (E : ends (t ++ rest)) by (eapply block_ends; eauto).
    destruct (simple_begin _ _ (t ++ rest) S (proj1 E)) as (tk & st' & r & T & N & _).
    destruct (simple_read _ _ S _ E) as (src' & H & R).
    eapply I_stmt; [exact T|exact N|exact H|]. apply R. replace (acc ++ s :: b) with ((acc ++ [s]) ++ b) by (rewrite <- app_assoc; reflexivity).
    apply IH.
  - intros closed s st b t S IHs K IH rest acc. rewrite <- app_assoc.
    destruct (control_begin _ _ _ (t ++ rest) S) as (tk & st' & r & T & N & _).
    destruct (IHs (t ++ rest)) as (src' & H & R).
    { intros ->. eapply block_ends; eauto. }
    { eapply block_begin; eauto. }
    eapply I_stmt; [exact T|exact N|exact H|]. apply R. replace (acc ++ s :: b) with ((acc ++ [s]) ++ b) by (rewrite <- app_assoc; reflexivity).
    apply IH.
Qed.

(** ** Functions *)
Lemma params_read ps t : spells_params ps t -> forall rest acc, ps <> [] \/ acc = [] ->
  exists k, pParams k acc (t ++ rest) = Ok (acc ++ ps) rest.
Proof.
  induction 1 as [g G|g p g' G W G'|g p g' ps t G W G' N Sp IH]; intros rest acc C; repeat (rewrite <- ?app_assoc; cbn [app]).
  - destruct C as [C| ->]; [congruence|]. exists 1%nat. cbn [pParams]. rewrite gap_skip by exact G. reflexivity.
  - exists 1%nat. cbn [pParams]. rewrite gap_skip by exact G. rewrite word_token; [|apply W|apply gap_apart with false; auto; apart_tac].
    rewrite gap_skip by exact G'. reflexivity.
  - destruct (IH rest (acc ++ [p]) (or_introl N)) as [k H]. exists (S k). cbn [pParams]. rewrite gap_skip by exact G.
    rewrite word_token; [|apply W|apply gap_apart with false; auto; apart_tac]. rewrite gap_skip by exact G'.
    change (token false (44 :: t ++ rest)) with (TComma, 44 :: t ++ rest, t ++ rest). cbv iota beta. rewrite H.
    rewrite <- app_assoc. reflexivity.
Qed.
Lemma script_read fns src : spells_script fns src -> forall acc, exists k, pFile k acc src = Ok (acc ++ fns) [].
Proof.
  induction 1 as [g G|g g1 n g2 ps t g3 b u fns v G G1 N1 W G2 P G3 K Sp IH]; intros acc.
  - exists 1%nat. cbn [pFile]. rewrite <- (app_nil_r g). rewrite gap_skip by exact G. rewrite app_nil_r. reflexivity.
  - destruct (params_read ps t P (g3 ++ 123 :: u ++ v) []) as [k1 H1]; [auto|].
    destruct (proj2 (proj2 blocks_read) _ _ _ K v []) as [k2 H2].
    destruct (IH (acc ++ [FnDef n ps b])) as [k3 H3].
    set (k := (k1 + k2 + k3)%nat). exists (S k). cbn [pFile]. rewrite gap_skip by exact G.
    rewrite keyword_token; [|cbn; auto 6|apply gap_apart_nonempty with false; auto].
    change (bytes_eqb k_fn k_fn) with true. cbv iota.
    assert (F : pFn k (g1 ++ n ++ g2 ++ 40 :: t ++ g3 ++ 123 :: u ++ v) = Ok (FnDef n ps b) v).
    { unfold pFn. rewrite gap_skip by exact G1. rewrite word_token; [|apply W|apply gap_apart with false; auto; apart_tac].
      rewrite gap_skip by exact G2. change (token false (40 :: t ++ g3 ++ 123 :: u ++ v)) with (TLParen, 40 :: t ++ g3 ++ 123 :: u ++ v, t ++ g3 ++ 123 :: u ++ v).
      cbv iota beta. rewrite (params_more k1 k _ _ _ _ ltac:(lia) H1). cbn [pbind app]. rewrite gap_skip by exact G3.
      change (token false (123 :: u ++ v)) with (TLCurly, 123 :: u ++ v, u ++ v). cbv iota beta.
      rewrite (items_more k2 k _ _ _ _ ltac:(lia) H2). reflexivity. }
    rewrite F. cbn [pbind]. rewrite (file_more k3 k _ _ _ _ ltac:(lia) H3). rewrite <- app_assoc. reflexivity.
Qed.
Theorem parse_script fns src : spells_script fns src -> parseFile src = Ok fns [].
Proof. intros H. destruct (script_read fns src H []) as [k K]. apply (file_says k src fns []). exact K. Qed.
