(* Written expressions are read as what was written. *)
From Coq Require Import Lia ZifyBool ZifyNat.
From Verif Require Import CrowbarParse CrowbarText CrowbarTok CrowbarEnds.
From Verif Require Import NumTextSpec NumTextProofs.

Definition exprTo nl outer src e rest := exists k, pExpr k nl outer src = Ok e rest.
Definition loopTo nl outer e0 src e rest := exists k, pLoop k nl outer e0 src = Ok e rest.
Definition argsTo src a rest := exists k, pArgs k src = Ok a rest.
Definition argListTo acc src a rest := exists k, pArgList k acc src = Ok a rest.
Definition strTo acc src ps rest := exists k, pStr k acc src = Ok ps rest.

Lemma expr_more k k' nl outer src e r : (k <= k')%nat -> pExpr k nl outer src = Ok e r -> pExpr k' nl outer src = Ok e r.
Proof. intros L H. apply (more (fun k => pExpr k nl outer src)) with k; auto; [intros; apply expr_deeper|discriminate]. Qed.
Lemma loop_more k k' nl outer e0 src e r : (k <= k')%nat -> pLoop k nl outer e0 src = Ok e r -> pLoop k' nl outer e0 src = Ok e r.
Proof. intros L H. apply (more (fun k => pLoop k nl outer e0 src)) with k; auto; [intros; apply expr_deeper|discriminate]. Qed.
Lemma args_more k k' src e r : (k <= k')%nat -> pArgs k src = Ok e r -> pArgs k' src = Ok e r.
Proof. intros L H. apply (more (fun k => pArgs k src)) with k; auto; [intros; apply expr_deeper|discriminate]. Qed.
Lemma arglist_more k k' acc src e r : (k <= k')%nat -> pArgList k acc src = Ok e r -> pArgList k' acc src = Ok e r.
Proof. intros L H. apply (more (fun k => pArgList k acc src)) with k; auto; [intros; apply expr_deeper|discriminate]. Qed.
Lemma str_more k k' acc src e r : (k <= k')%nat -> pStr k acc src = Ok e r -> pStr k' acc src = Ok e r.
Proof. intros L H. apply (more (fun k => pStr k acc src)) with k; auto; [intros; apply expr_deeper|discriminate]. Qed.

Lemma max_l a b : (a <= a + b)%nat. Proof. lia. Qed.
Lemma max_r a b : (b <= a + b)%nat. Proof. lia. Qed.
#[local] Hint Resolve max_l max_r : core.

(** ** One step of each parser *)
Lemma E_name nl outer src n st rest e r : token nl src = (TIdent n, st, rest) ->
  loopTo nl outer (EName n) rest e r -> exprTo nl outer src e r.
Proof. intros T [k H]. exists (S k). cbn [pExpr]. rewrite T. exact H. Qed.
Lemma E_num nl outer src t v st rest e r : token nl src = (TNum t, st, rest) -> sv_to parse_u32 t 0 = Some v ->
  loopTo nl outer (EInt v) rest e r -> exprTo nl outer src e r.
Proof. intros T V [k H]. exists (S k). cbn [pExpr]. rewrite T, V. exact H. Qed.
Lemma E_str nl outer src st rest ps s e r : token nl src = (TBegin, st, rest) -> strTo [] rest ps s ->
  loopTo nl outer (EStr ps) s e r -> exprTo nl outer src e r.
Proof.
  intros T [k1 H1] [k2 H2]. exists (S (k1 + k2)). cbn [pExpr]. rewrite T.
  rewrite (str_more k1 (k1 + k2) _ _ _ _ ltac:(auto) H1). cbn [pbind]. eapply loop_more; eauto.
Qed.
Lemma E_paren nl outer src st rest e0 s st2 s2 e r : token nl src = (TLParen, st, rest) -> exprTo false anyLevel rest e0 s ->
  token false s = (TRParen, st2, s2) -> loopTo nl outer e0 s2 e r -> exprTo nl outer src e r.
Proof.
  intros T [k1 H1] T2 [k2 H2]. exists (S (k1 + k2)). cbn [pExpr]. rewrite T.
  rewrite (expr_more k1 (k1 + k2) _ _ _ _ _ ltac:(auto) H1). cbn [pbind]. rewrite T2. eapply loop_more; eauto.
Qed.
Lemma E_un nl outer src t op st rest e0 s e r : token nl src = (t, st, rest) -> unaryOf t = Some op ->
  exprTo nl anyLevel rest e0 s -> loopTo nl outer (EUn op e0) s e r -> exprTo nl outer src e r.
Proof.
  intros T U [k1 H1] [k2 H2]. exists (S (k1 + k2)). cbn [pExpr]. rewrite T.
  apply (expr_more k1 (k1 + k2) _ _ _ _ _ ltac:(auto)) in H1. apply (loop_more k2 (k1 + k2) _ _ _ _ _ _ ltac:(auto)) in H2.
  destruct t; cbn [unaryOf] in *; try discriminate; injection U as <-; rewrite H1; exact H2.
Qed.
Lemma L_call nl outer e0 src st rest args s e r : token nl src = (TLParen, st, rest) -> argsTo rest args s ->
  loopTo nl outer (ECall e0 args) s e r -> loopTo nl outer e0 src e r.
Proof.
  intros T [k1 H1] [k2 H2]. exists (S (k1 + k2)). cbn [pLoop]. rewrite T.
  rewrite (args_more k1 (k1 + k2) _ _ _ ltac:(auto) H1). cbn [pbind]. eapply loop_more; eauto.
Qed.
Lemma L_dot nl outer e0 src st rest n st2 s e r : token nl src = (TDot, st, rest) -> token nl rest = (TIdent n, st2, s) ->
  loopTo nl outer (EProp e0 n) s e r -> loopTo nl outer e0 src e r.
Proof. intros T T2 [k2 H2]. exists (S k2). cbn [pLoop]. rewrite T, T2. exact H2. Qed.
Lemma L_op nl outer e0 src t op st rest e1 s e r : token nl src = (t, st, rest) -> binaryOf t = Some op ->
  precedence op < outer -> exprTo nl (precedence op) rest e1 s -> loopTo nl outer (EBin op e0 e1) s e r ->
  loopTo nl outer e0 src e r.
Proof.
  intros T U L [k1 H1] [k2 H2]. exists (S (k1 + k2)). cbn [pLoop]. rewrite T.
  apply (expr_more k1 (k1 + k2) _ _ _ _ _ ltac:(auto)) in H1. apply (loop_more k2 (k1 + k2) _ _ _ _ _ _ ltac:(auto)) in H2.
  assert (E : (outer <=? precedence op) = false) by (apply Z.leb_gt; exact L).
  destruct t; cbn [binaryOf] in *; try discriminate; injection U as <-; rewrite E, H1; exact H2.
Qed.
(** Where the loop ends. *)
Definition halts (outer : Z) (t : tok) : Prop :=
  t <> TLParen /\ t <> TDot /\ forall op, binaryOf t = Some op -> outer <= precedence op.
Lemma L_stop nl outer e0 src t st rest : token nl src = (t, st, rest) -> halts outer t -> loopTo nl outer e0 src e0 st.
Proof.
  intros T (N1 & N2 & N3). exists 1%nat. cbn [pLoop]. rewrite T.
  destruct t; cbn [binaryOf] in *; try congruence; try reflexivity;
    specialize (N3 _ eq_refl); apply Z.leb_le in N3; rewrite N3; reflexivity.
Qed.
Lemma A_none src st rest : token false src = (TRParen, st, rest) -> argsTo src [] rest.
Proof. intros T. exists 1%nat. cbn [pArgs]. rewrite T. reflexivity. Qed.
Lemma A_some src t st rest a r : token false src = (t, st, rest) -> t <> TRParen -> argListTo [] st a r -> argsTo src a r.
Proof. intros T N [k H]. exists (S k). cbn [pArgs]. rewrite T. destruct t; auto. congruence. Qed.
Lemma AL_last acc src a s st rest : exprTo false anyLevel src a s -> token false s = (TRParen, st, rest) ->
  argListTo acc src (acc ++ [a]) rest.
Proof. intros [k H] T. exists (S k). cbn [pArgList]. rewrite H. cbn [pbind]. rewrite T. reflexivity. Qed.
Lemma AL_more acc src a s st rest b r : exprTo false anyLevel src a s -> token false s = (TComma, st, rest) ->
  argListTo (acc ++ [a]) rest b r -> argListTo acc src b r.
Proof.
  intros [k1 H1] T [k2 H2]. exists (S (k1 + k2)). cbn [pArgList].
  rewrite (expr_more k1 (k1 + k2) _ _ _ _ _ ltac:(auto) H1). cbn [pbind]. rewrite T. eapply arglist_more; eauto.
Qed.
Lemma S_end acc src rest : readStr [] src = Some (SEnd rest) -> strTo acc src acc rest.
Proof. intros R. exists 1%nat. cbn [pStr]. rewrite R. reflexivity. Qed.
Lemma S_lit acc src t rest ps r : readStr [] src = Some (SLit t rest) -> strTo (acc ++ [(t, None)]) rest ps r -> strTo acc src ps r.
Proof. intros R [k H]. exists (S k). cbn [pStr]. rewrite R. exact H. Qed.
Lemma S_embed acc src rest e s st s2 ps r : readStr [] src = Some (SEmbed rest) -> exprTo false anyLevel rest e s ->
  token false s = (TRCurly, st, s2) -> strTo (setEmbed acc e) s2 ps r -> strTo acc src ps r.
Proof.
  intros R [k1 H1] T [k2 H2]. exists (S (k1 + k2)). cbn [pStr]. rewrite R.
  rewrite (expr_more k1 (k1 + k2) _ _ _ _ _ ltac:(auto) H1). cbn [pbind]. rewrite T. eapply str_more; eauto.
Qed.
(** The parsers see a source only through its first token. *)
Lemma expr_start nl outer src src' e r : token nl src = token nl src' -> exprTo nl outer src e r -> exprTo nl outer src' e r.
Proof. intros T [k H]. exists k. destruct k; [discriminate|]. cbn [pExpr] in *. rewrite <- T. exact H. Qed.
Lemma loop_start nl outer e0 src src' e r : token nl src = token nl src' -> loopTo nl outer e0 src e r -> loopTo nl outer e0 src' e r.
Proof. intros T [k H]. exists k. destruct k; [discriminate|]. cbn [pLoop] in *. rewrite <- T. exact H. Qed.
Lemma arglist_start acc src src' a r : token false src = token false src' -> argListTo acc src a r -> argListTo acc src' a r.
Proof.
  intros T [k H]. exists k. destruct k; [discriminate|]. cbn [pArgList] in *.
  destruct k; [discriminate|]. cbn [pExpr] in *. rewrite <- T. exact H.
Qed.

(** ** What may follow an expression *)
Definition follows nl lvl rest : Prop :=
  apart rest /\ forall t st r, token nl rest = (t, st, r) ->
    (0 < lvl -> t <> TLParen /\ t <> TDot) /\ forall op, binaryOf t = Some op -> lvl <= precedence op.
Lemma follows_less nl lvl lvl' rest : follows nl lvl rest -> lvl' <= lvl -> follows nl lvl' rest.
Proof.
  intros [A F] L. split; auto. intros t st r T. destruct (F t st r T) as [F1 F2].
  split; [intros; apply F1; lia|]. intros op O. specialize (F2 op O). lia.
Qed.
Lemma follows_stop nl lvl rest e0 : 0 < lvl -> follows nl lvl rest -> exists st, loopTo nl lvl e0 rest e0 st /\ token nl st = token nl rest.
Proof.
  intros P [A F]. destruct (token nl rest) as [[t st] r] eqn:T. exists st. destruct (F _ _ _ eq_refl) as [F1 F2].
  split.
  - eapply L_stop; eauto. destruct (F1 P). split; [|split]; auto.
  - eapply token_start; eauto.
Qed.
(** A token that ends every expression. *)
Lemma follows_by nl lvl rest t st r : apart rest -> token nl rest = (t, st, r) -> t <> TLParen -> t <> TDot -> binaryOf t = None ->
  follows nl lvl rest.
Proof. intros A T N1 N2 B. split; auto. intros t' st' r' T'. rewrite T in T'. injection T' as <- <- <-. split; auto. rewrite B. discriminate. Qed.

Lemma gap_apart nl g s : gap nl g -> apart s -> apart (g ++ s).
Proof.
  intros [|c g' B G|t g' N G|g' E G|t g' E N G] A; cbn; auto; unfold letterOrDigit, letter; lia.
Qed.
Lemma gap_apart_nonempty nl g s : gap nl g -> g <> [] -> apart (g ++ s).
Proof.
  intros [|c g' B G|t g' N G|g' E G|t g' E N G] A; cbn; try congruence; unfold letterOrDigit, letter; lia.
Qed.
Ltac apart_tac := cbn [apart app]; unfold letterOrDigit, letter; lia.

Lemma spells_level nl lvl tail e s : spells nl lvl tail e s -> 0 <= lvl <= 12.
Proof. destruct 1; try lia. destruct op; cbn; lia. Qed.

(** The first byte of an expression. *)
Definition opens (c : Z) : Prop := c <> 61 /\ c <> 42.
Lemma gap_head nl g s : gap nl g -> (exists c s', s = c :: s' /\ opens c) -> exists c s', g ++ s = c :: s' /\ opens c.
Proof.
  intros [|c g' B G|t g' N G|g' E G|t g' E N G] H; auto; cbn [app]; do 2 eexists; (split; [reflexivity|]); unfold opens; lia.
Qed.
Lemma head_more s t : (exists c s', s = c :: s' /\ opens c) -> exists c s', s ++ t = c :: s' /\ opens c.
Proof. intros (c & s' & -> & O). exists c, (s' ++ t). split; auto. Qed.
Lemma spells_head nl lvl tail e s : spells nl lvl tail e s -> exists c s', s = c :: s' /\ opens c.
Proof.
  induction 1 as [nl g n G W|nl g t v G N D V L|nl g ps t G S|nl g lvl tail e s g' G S IH G'|nl e s g g' n S IH G G' W
    |nl f s g args t S IH G A|nl g op lvl tail e s G S IH L|nl op ll l s g lr tail r t S IH L G S' IH' L' D]; try (apply gap_head with nl; [exact G|]).
  - destruct W as [W _]. destruct n as [|c n]; [contradiction|]. destruct W as [W _]. exists c, n. split; auto.
    unfold letter, opens in *. lia.
  - destruct t as [|c t]; [congruence|]. inversion D; subst. exists c, t. split; auto. unfold opens. lia.
  - exists 34, t. split; auto. unfold opens. lia.
  - eexists _, _. split; [reflexivity|]. unfold opens. lia.
  - apply head_more. exact IH.
  - apply head_more. exact IH.
  - eexists _, _. split; [reflexivity|]. destruct op; cbn; unfold opens; lia.
  - apply head_more. exact IH.
Qed.

(** The token of an operator. *)
Definition opToken (op : binop) : tok :=
  match op with
  | OMul => TStar | ODiv => TSlash | OMod => TPercent | OAdd => TPlus | OSub => TMinus
  | OLt => TLt | OLe => TLe | OGt => TGt | OGe => TGe | OEq => TEqEq | OAnd => TAndAnd | OOr => TOrOr
  end.
Lemma op_token nl op c t : opens c -> (op = ODiv -> c <> 47) ->
  token nl (symbol op ++ c :: t) = (opToken op, symbol op ++ c :: t, c :: t).
Proof.
  intros [N1 N2] D. unfold token. destruct op; cbn; try reflexivity.
  - specialize (D eq_refl). apply Z.eqb_neq in N1, N2, D. rewrite D, N2, N1. reflexivity.
  - apply Z.eqb_neq in N1. rewrite N1. reflexivity.
  - apply Z.eqb_neq in N1. rewrite N1. reflexivity.
Qed.
Lemma op_level op : precedence op = level op.
Proof. destruct op; reflexivity. Qed.
Lemma opToken_op op : binaryOf (opToken op) = Some op /\ opToken op <> TLParen /\ opToken op <> TDot.
Proof. destruct op; repeat split; discriminate. Qed.

(** The first token of an expression. *)
Definition begins (t : tok) : Prop :=
  match t with
  | TIdent n => ~ In n [k_if; k_while; k_else; k_return]
  | TNum _ | TBegin | TLParen | TMinus | TBang | TTilde => True
  | _ => False
  end.
Lemma symbol_apart op s : apart (symbol op ++ s).
Proof. destruct op; cbn [symbol]; apart_tac. Qed.
Lemma spells_begin nl lvl tail e s : spells nl lvl tail e s -> forall rest, apart rest ->
  exists t st r, token nl (s ++ rest) = (t, st, r) /\ begins t.
Proof.
  induction 1 as [nl g n G W|nl g t v G N D V L|nl g ps t G S|nl g lvl tail e s g' G S IH G'|nl e s g g' n S IH G G' W
    |nl f s g args t S IH G A|nl g op lvl tail e s G S IH L|nl op ll l s g lr tail r t S IH L G S' IH' L' D]; intros rest Ap;
    rewrite <- ?app_assoc; try rewrite (gap_skip nl g) by exact G.
  - rewrite word_token; [|apply W|exact Ap]. do 3 eexists. split; [reflexivity|]. apply W.
  - rewrite number_token; auto. do 3 eexists. split; [reflexivity|]. exact I.
  - do 3 eexists. split; [reflexivity|]. exact I.
  - do 3 eexists. split; [reflexivity|]. exact I.
  - apply IH. apply gap_apart with nl; auto. apart_tac.
  - apply IH. apply gap_apart with nl; auto. apart_tac.
  - destruct op; do 3 eexists; (split; [reflexivity|]); exact I.
  - apply IH. apply gap_apart with nl; auto. apply symbol_apart.
Qed.

Lemma number_value t v : t <> [] -> Forall (fun c => 48 <= c <= 57) t -> denotes 10 t v ->
  sv_to parse_u32 t 0 = Some (if v <? 2 ^ 32 then v else 0).
Proof.
  intros N D V. unfold sv_to.
  pose proof (trim_padded [] t []) as Tr. cbn [app] in Tr. rewrite app_nil_r in Tr.
  rewrite Tr; auto; try constructor.
  - pose proof (narrow_unsigned u32 (2 ^ 32 - 1) 10 t v [] (fits_u 32 ltac:(lia)) ltac:(lia) ltac:(lia) V N) as P.
    rewrite app_nil_r in P. unfold parse_u32. rewrite P by exact I.
    destruct (v <=? 2 ^ 32 - 1) eqn:E1, (v <? 2 ^ 32) eqn:E2; try reflexivity; lia.
  - eapply Forall_impl; [|exact D]. intros c Hc. cbn in Hc. unfold isWhite. lia.
Qed.

Lemma setEmbed_open acc l e : setEmbed (acc ++ [(l, None)]) e = acc ++ [(l, Some e)].
Proof.
  induction acc as [|p acc IH]; [reflexivity|]. cbn [app setEmbed]. rewrite IH.
  destruct p as [l' [e'|]]; auto. destruct acc; reflexivity.
Qed.
Definition whole (ps : list (list Z * option expr)) : Prop := ps = [] \/ exists qs l e, ps = qs ++ [(l, Some e)].
Lemma setEmbed_whole acc e : whole acc -> setEmbed acc e = acc ++ [([], Some e)].
Proof.
  intros [->|(qs & l & e' & ->)]; [reflexivity|].
  induction qs as [|p qs IH]; [reflexivity|]. cbn [app setEmbed]. cbn [app] in IH. rewrite IH.
  destruct p as [l' [?|]]; auto. destruct qs; reflexivity.
Qed.

Scheme spells_m := Induction for spells Sort Prop
with spells_args_m := Induction for spells_args Sort Prop
with spells_str_m := Induction for spells_str Sort Prop.
Combined Scheme spells_mutual from spells_m, spells_args_m, spells_str_m.

Definition bound (tail : bool) (lvl : Z) : Z := if tail then anyLevel else lvl.
Lemma any_big : 12 < anyLevel. Proof. unfold anyLevel. lia. Qed.

(** An expression in its place: in brackets, between commas, at the end of a statement. *)
Lemma in_place nl lvl tail e s rest t st r :
  (forall outer rest res r, lvl < outer -> follows nl (bound tail lvl) rest ->
    loopTo nl outer e rest res r -> exprTo nl outer (s ++ rest) res r) ->
  0 <= lvl <= 12 -> apart rest -> token nl rest = (t, st, r) -> halts anyLevel t ->
  exprTo nl anyLevel (s ++ rest) e st.
Proof.
  intros H L A T P. pose proof any_big. apply H; [lia| |].
  - split; auto. intros t' st' r' T'. rewrite T in T'. injection T' as <- <- <-. destruct P as (P1 & P2 & P3).
    split; auto. intros op O. specialize (P3 op O). unfold bound. destruct tail; lia.
  - eapply L_stop; eauto.
Qed.

Theorem spells_read :
  (forall nl lvl tail e s, spells nl lvl tail e s -> forall outer rest res r, lvl < outer -> follows nl (bound tail lvl) rest ->
    loopTo nl outer e rest res r -> exprTo nl outer (s ++ rest) res r) /\
  (forall args t, spells_args args t -> forall rest, argsTo (t ++ rest) args rest /\
    (args <> [] -> forall acc, argListTo acc (t ++ rest) (acc ++ args) rest)) /\
  (forall ps t, spells_str ps t -> forall rest acc, whole acc -> strTo acc (t ++ rest) (acc ++ ps) rest).
Proof.
  apply (spells_mutual
    (fun nl lvl tail e s _ => forall outer rest res r, lvl < outer -> follows nl (bound tail lvl) rest ->
      loopTo nl outer e rest res r -> exprTo nl outer (s ++ rest) res r)
    (fun args t _ => forall rest, argsTo (t ++ rest) args rest /\
      (args <> [] -> forall acc, argListTo acc (t ++ rest) (acc ++ args) rest))
    (fun ps t _ => forall rest acc, whole acc -> strTo acc (t ++ rest) (acc ++ ps) rest)).
  - intros nl g n G W outer rest res r L F H. rewrite <- app_assoc. eapply E_name; [|exact H].
    rewrite gap_skip by exact G. apply word_token; [apply W|apply F].
  - intros nl g t v G N D V B outer rest res r L F H. rewrite <- app_assoc. eapply E_num; [| |exact H].
    + rewrite gap_skip by exact G. apply number_token; auto. apply F.
    + rewrite (number_value t v) by auto. apply Z.ltb_lt in B. rewrite B. reflexivity.
  - intros nl g ps t G S IH outer rest res r L F H. rewrite <- app_assoc. eapply E_str; [| |exact H].
    + rewrite gap_skip by exact G. reflexivity.
    + apply (IH rest []). left. reflexivity.
  - intros nl g lvl tail e s g' G S IH G' outer rest res r L F H. rewrite <- app_assoc.
    cbn [app]. rewrite <- !app_assoc. eapply E_paren; [| | |exact H].
    + rewrite gap_skip by exact G. reflexivity.
    + eapply in_place; [exact IH|eapply spells_level; eauto| | |].
      * apply gap_apart with false; auto. apart_tac.
      * rewrite gap_skip by exact G'. reflexivity.
      * repeat split; discriminate.
    + reflexivity.
  - intros nl e s g g' n S IH G G' W outer rest res r L F H. rewrite <- !app_assoc. cbn [app]. rewrite <- !app_assoc.
    assert (T : token nl (g ++ 46 :: g' ++ n ++ rest) = (TDot, 46 :: g' ++ n ++ rest, g' ++ n ++ rest))
      by (rewrite gap_skip by exact G; reflexivity).
    apply IH; auto.
    + split.
      * apply gap_apart with nl; auto. apart_tac.
      * intros t' st' r' T'. rewrite T in T'. injection T' as <- <- <-. cbn. split; [lia|discriminate].
    + eapply L_dot; [exact T| |exact H]. rewrite gap_skip by exact G'. apply word_token; [apply W|apply F].
  - intros nl f s g args t S IH G A IHa outer rest res r L F H. rewrite <- !app_assoc. cbn [app].
    assert (T : token nl (g ++ 40 :: t ++ rest) = (TLParen, 40 :: t ++ rest, t ++ rest))
      by (rewrite gap_skip by exact G; reflexivity).
    apply IH; auto.
    + split.
      * apply gap_apart with nl; auto. apart_tac.
      * intros t' st' r' T'. rewrite T in T'. injection T' as <- <- <-. cbn. split; [lia|discriminate].
    + eapply L_call; [exact T|apply IHa|exact H].
  - intros nl g op lvl tail e s G S IH L2 outer rest res r L F H. rewrite <- app_assoc. cbn [app].
    pose proof any_big as AB. cbn [bound] in F. pose proof (spells_level _ _ _ _ _ S) as SL.
    destruct (follows_stop nl anyLevel rest e ltac:(lia) F) as (st & H1 & T).
    eapply E_un with (t := match op with UNeg => TMinus | UNot => TBang | UCompl => TTilde end) (op := op) (rest := s ++ rest).
    + rewrite gap_skip by exact G. destruct op; reflexivity.
    + destruct op; reflexivity.
    + apply IH; [lia| |exact H1]. eapply follows_less; [exact F|]. unfold bound. destruct tail; lia.
    + eapply loop_start; [|exact H]. symmetry. exact T.
  - intros nl op ll l s g lr tail r t S IH L G S' IH' L' D outer rest res r' Lo F H.
    rewrite <- !app_assoc. pose proof any_big as AB.
    pose proof (spells_level _ _ _ _ _ S) as SL. pose proof (spells_level _ _ _ _ _ S') as SL'.
    destruct (spells_head _ _ _ _ _ S') as (c & t' & Et & Oc).
    assert (T : token nl (g ++ symbol op ++ t ++ rest) = (opToken op, symbol op ++ t ++ rest, t ++ rest)).
    { rewrite gap_skip by exact G. rewrite Et. cbn [app]. apply op_token; auto. intros -> ->. apply (D eq_refl t'). exact Et. }
    destruct (opToken_op op) as (O1 & O2 & O3).
    apply IH; [lia| |].
    + split.
      * apply gap_apart with nl; auto. apply symbol_apart.
      * intros t1 st1 r1 T1. rewrite T in T1. injection T1 as <- <- <-. split; auto.
        intros op' Q. rewrite O1 in Q. injection Q as <-. cbn [bound]. rewrite op_level. lia.
    + destruct (follows_stop nl (level op) rest r) as (st & H1 & T1).
      * destruct op; cbn; lia.
      * eapply follows_less; [exact F|]. unfold bound. destruct tail; [|lia]. destruct op; cbn; lia.
      * eapply L_op; [exact T|exact O1|rewrite op_level; exact Lo| |].
        -- rewrite op_level. apply IH'; [exact L'| |].
           ++ eapply follows_less; [exact F|]. unfold bound. destruct tail; lia.
           ++ exact H1.
        -- eapply loop_start; [|exact H]. symmetry. exact T1.
  - intros g G rest. rewrite <- app_assoc. split; [|congruence]. eapply A_none. rewrite gap_skip by exact G. reflexivity.
  - intros lvl tail a s g S IH G rest. rewrite <- !app_assoc. cbn [app].
    assert (Ap : apart (g ++ 41 :: rest)) by (apply gap_apart with false; auto; apart_tac).
    assert (T : token false (g ++ 41 :: rest) = (TRParen, 41 :: rest, rest)) by (rewrite gap_skip by exact G; reflexivity).
    assert (E : exprTo false anyLevel (s ++ g ++ 41 :: rest) a (41 :: rest)).
    { eapply in_place; [exact IH|eapply spells_level; eauto|exact Ap|exact T|repeat split; discriminate]. }
    assert (All : forall acc, argListTo acc (s ++ g ++ 41 :: rest) (acc ++ [a]) rest) by (intros; eapply AL_last; [exact E|reflexivity]).
    split; auto.
    destruct (spells_begin _ _ _ _ _ S _ Ap) as (t & st & r & T' & B).
    eapply A_some; [exact T'|intros ->; exact B|]. eapply arglist_start; [|apply All]. rewrite T'. symmetry. eapply token_start; eauto.
  - intros lvl tail a s g args t S IH G N A IHa rest. rewrite <- !app_assoc. cbn [app].
    assert (Ap : apart (g ++ 44 :: t ++ rest)) by (apply gap_apart with false; auto; apart_tac).
    assert (T : token false (g ++ 44 :: t ++ rest) = (TComma, 44 :: t ++ rest, t ++ rest)) by (rewrite gap_skip by exact G; reflexivity).
    assert (E : exprTo false anyLevel (s ++ g ++ 44 :: t ++ rest) a (44 :: t ++ rest)).
    { eapply in_place; [exact IH|eapply spells_level; eauto|exact Ap|exact T|repeat split; discriminate]. }
    assert (All : forall acc, argListTo acc (s ++ g ++ 44 :: t ++ rest) (acc ++ a :: args) rest).
    { intros acc. eapply AL_more; [exact E|reflexivity|]. replace (acc ++ a :: args) with ((acc ++ [a]) ++ args) by (rewrite <- app_assoc; reflexivity).
      apply IHa. exact N. }
    split; auto.
    destruct (spells_begin _ _ _ _ _ S _ Ap) as (t' & st & r & T' & B).
    eapply A_some; [exact T'|intros ->; exact B|]. eapply arglist_start; [|apply (All [])]. rewrite T'. symmetry. eapply token_start; eauto.
  - intros rest acc W. rewrite app_nil_r. apply S_end. reflexivity.
  - intros l s N Li rest acc W. rewrite <- app_assoc. cbn [app].
    apply S_lit with l (34 :: rest); [|apply S_end; reflexivity]. rewrite (readStr_literal _ _ Li) by discriminate. cbn [app readStr].
    change (34 =? 92) with false. change (34 =? 34) with true. cbv iota. destruct l; [congruence|]. reflexivity.
  - intros l s lvl tail e t g ps u Li S IH G P IHp rest acc W. repeat (rewrite <- ?app_assoc; cbn [app]).
    assert (E : exprTo false anyLevel (t ++ g ++ 125 :: u ++ rest) e (125 :: u ++ rest)).
    { eapply in_place; [exact IH|eapply spells_level; eauto| | |].
      - apply gap_apart with false; auto. apart_tac.
      - rewrite gap_skip by exact G. reflexivity.
      - repeat split; discriminate. }
    assert (R : forall acc', readStr acc' (s ++ 36 :: 123 :: t ++ g ++ 125 :: u ++ rest) =
      readStr (acc' ++ l) (36 :: 123 :: t ++ g ++ 125 :: u ++ rest)).
    { intros acc'. rewrite (readStr_literal _ _ Li) by discriminate. reflexivity. }
    specialize (R []). cbn [app] in R. cbn [readStr] in R. change (36 =? 92) with false in R. change (36 =? 34) with false in R.
    change (36 =? 36) with true in R. change (123 =? 123) with true in R. cbv iota in R.
    assert (Next : strTo (acc ++ [(l, Some e)]) (u ++ rest) (acc ++ (l, Some e) :: ps) rest).
    { replace (acc ++ (l, Some e) :: ps) with ((acc ++ [(l, Some e)]) ++ ps) by (rewrite <- app_assoc; reflexivity).
      apply IHp. right. exists acc, l, e. reflexivity. }
    destruct l as [|c l].
    + eapply S_embed; [exact R|exact E|reflexivity|]. rewrite setEmbed_whole by exact W. exact Next.
    + eapply S_lit; [exact R|]. eapply S_embed; [reflexivity|exact E|reflexivity|]. rewrite setEmbed_open. exact Next.
Qed.
