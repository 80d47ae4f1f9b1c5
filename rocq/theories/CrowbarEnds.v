(* Parsing ends, and the depth allowed to the model does not matter. *)
From Coq Require Import Lia ZifyBool ZifyNat.
From Verif Require Import CrowbarParse CrowbarText CrowbarTok.
Local Open Scope nat_scope.

Ltac tok_facts :=
  repeat match goal with
  | H : token ?nl ?s = (?t, ?a, ?b) |- _ =>
      lazymatch goal with
      | _ : length b < length s |- _ => fail
      | _ => pose proof (token_start_length _ _ _ _ _ H);
             pose proof (token_rest_length _ _ _ _ _ H ltac:(discriminate))
      end
  end;
  repeat match goal with
  | H : token ?nl ?s = (?t, ?a, ?b) |- _ =>
      lazymatch goal with
      | _ : length b < length s |- _ => fail
      | _ : length b <= length s |- _ => fail
      | _ => pose proof (token_start_length _ _ _ _ _ H); pose proof (token_rest_le _ _ _ _ _ H)
      end
  end.

Lemma pbind_ok {A B} (x : pres A) (f : A -> list Z -> pres B) b r :
  pbind x f = Ok b r -> exists a s, x = Ok a s /\ f a s = Ok b r.
Proof. destruct x; cbn; try discriminate. intros H. eauto. Qed.

(** What is parsed is taken from the source. *)
Lemma expr_consumes k :
  (forall nl outer src e r, pExpr k nl outer src = Ok e r -> length r < length src) /\
  (forall nl outer e0 src e r, pLoop k nl outer e0 src = Ok e r -> length r <= length src) /\
  (forall src a r, pArgs k src = Ok a r -> length r < length src) /\
  (forall args src a r, pArgList k args src = Ok a r -> length r < length src) /\
  (forall ps src a r, pStr k ps src = Ok a r -> length r < length src).
Proof.
  induction k as [|k (IHe & IHl & IHa & IHb & IHs)]; [repeat split; intros; discriminate|].
  repeat split.
  - intros nl outer src e r. cbn [pExpr]. destruct (token nl src) as [[t start] rest] eqn:T.
    assert (Un : forall op, t <> TEOF -> pbind (pExpr k nl anyLevel rest) (fun e src => pLoop k nl outer (EUn op e) src) = Ok e r ->
      length r < length src).
    { intros op N Q. pose proof (token_rest_length _ _ _ _ _ T N). apply pbind_ok in Q. destruct Q as (a & s & H1 & H2).
      apply IHe in H1. apply IHl in H2. lia. }
    destruct t; cbn [unaryOf]; try discriminate; tok_facts; try (apply Un; discriminate).
    + intros Q. apply IHl in Q. lia.
    + destruct (sv_to parse_u32 t 0); [|discriminate]. intros Q. apply IHl in Q. lia.
    + intros Q. apply pbind_ok in Q. destruct Q as (a & s & H1 & H2). apply IHs in H1. apply IHl in H2. lia.
    + intros Q. apply pbind_ok in Q. destruct Q as (a & s & H1 & H2). apply IHe in H1.
      destruct (token false s) as [[t' start'] rest'] eqn:T'. destruct t'; try discriminate. tok_facts. apply IHl in H2. lia.
  - intros nl outer e0 src e r. cbn [pLoop]. destruct (token nl src) as [[t start] rest] eqn:T. tok_facts.
    assert (Op : forall op, (if (outer <=? precedence op)%Z then Ok e0 start
        else pbind (pExpr k nl (precedence op) rest) (fun r src => pLoop k nl outer (EBin op e0 r) src)) = Ok e r -> length r <= length src).
    { intros op. destruct (outer <=? precedence op)%Z. { intros Q'. injection Q' as _ <-. lia. }
      intros Q'. apply pbind_ok in Q'. destruct Q' as (a & s & H1 & H2). apply IHe in H1. apply IHl in H2. lia. }
    destruct t; cbn [binaryOf]; try apply Op; try (intros Q'; injection Q' as _ <-; lia).
    + intros Q'. apply pbind_ok in Q'. destruct Q' as (a & s & H1 & H2). apply IHa in H1. apply IHl in H2. lia.
    + destruct (token nl rest) as [[t' start'] rest'] eqn:T'. destruct t'; try discriminate. tok_facts. intros Q'. apply IHl in Q'. lia.
  - intros src a r. cbn [pArgs]. destruct (token false src) as [[t start] rest] eqn:T.
    pose proof (token_start_length _ _ _ _ _ T).
    destruct t; try (intros Q'; apply IHb in Q'; lia). tok_facts. intros Q'. injection Q' as _ <-. lia.
  - intros args src a r Q. cbn [pArgList] in Q. apply pbind_ok in Q. destruct Q as (x & s & H1 & H2). apply IHe in H1.
    destruct (token false s) as [[t start] rest] eqn:T. destruct t; try discriminate; tok_facts.
    + injection H2 as _ <-. lia.
    + apply IHb in H2. lia.
  - intros ps src a r. cbn [pStr]. destruct (readStr [] src) as [st|] eqn:R; [|discriminate].
    pose proof (readStr_length _ _ _ R) as L. destruct st as [rest|rest|t rest].
    + intros Q. injection Q as _ <-. exact L.
    + intros Q. apply pbind_ok in Q. destruct Q as (x & s & H1 & H2). apply IHe in H1.
      destruct (token false s) as [[t start] rest'] eqn:T. destruct t; try discriminate. tok_facts. apply IHs in H2. lia.
    + intros Q. apply IHs in Q. assert (length rest < length src); [|lia].
      destruct L as [(_ & [C|C] & _)|(_ & [C|C] & _)]; auto; congruence.
Qed.
Definition expr_less k := proj1 (expr_consumes k).

Lemma end_consumes s src a r : endOfStatement s src = Ok a r -> length r <= length src.
Proof.
  unfold endOfStatement. destruct (token true src) as [[t start] rest] eqn:T. tok_facts.
  destruct t; try discriminate; intros Q; injection Q as _ <-; lia.
Qed.

Lemma stmt_consumes k :
  (forall src s r, pStmt k src = Ok s r -> length r < length src) /\
  (forall src s r, pBody k src = Ok s r -> length r < length src) /\
  (forall b src s r, pItems k b src = Ok s r -> length r < length src).
Proof.
  induction k as [|k (IHs & IHb & IHi)]; [repeat split; intros; discriminate|].
  destruct (expr_consumes k) as (IHe & _).
  repeat split.
  - intros src s r. cbn [pStmt]. destruct (token true src) as [[t start] rest] eqn:T. cbv zeta. tok_facts.
    destruct (bytes_eqb _ k_if).
    { intros Q. apply pbind_ok in Q. destruct Q as (c & s1 & Q1 & Q). apply pbind_ok in Q. destruct Q as (b & s2 & Q2 & Q).
      apply IHe in Q1. apply IHb in Q2. destruct (token false s2) as [[t' start'] rest'] eqn:T'. tok_facts.
      destruct t'; try (injection Q as _ <-; lia). destruct (bytes_eqb n k_else); [|injection Q as _ <-; lia].
      apply pbind_ok in Q. destruct Q as (f & s3 & Q3 & Q). apply IHb in Q3. injection Q as _ <-. lia. }
    destruct (bytes_eqb _ k_while).
    { intros Q. apply pbind_ok in Q. destruct Q as (c & s1 & Q1 & Q). apply pbind_ok in Q. destruct Q as (b & s2 & Q2 & Q).
      apply IHe in Q1. apply IHb in Q2. injection Q as _ <-. lia. }
    destruct (bytes_eqb _ k_return).
    { intros Q. apply pbind_ok in Q. destruct Q as (c & s1 & Q1 & Q). apply IHe in Q1. injection Q as _ <-. lia. }
    intros Q. apply pbind_ok in Q. destruct Q as (c & s1 & Q1 & Q). apply IHe in Q1.
    destruct (token true s1) as [[t' start'] rest'] eqn:T'. tok_facts.
    destruct t'; try (apply end_consumes in Q; lia).
    apply pbind_ok in Q. destruct Q as (c' & s2 & Q2 & Q). apply IHe in Q2. apply end_consumes in Q. lia.
  - intros src s r. cbn [pBody]. destruct (token false src) as [[t start] rest] eqn:T. tok_facts.
    assert (Other : pbind (pStmt k start) (fun s src => match s with SReturn _ => Ok [s] src | _ => Reject end) = Ok s r ->
      length r < length src).
    { intros Q. apply pbind_ok in Q. destruct Q as (c & s1 & Q1 & Q). apply IHs in Q1. destruct c; try discriminate.
      injection Q as _ <-. lia. }
    destruct t; try exact Other. intros Q. apply IHi in Q. lia.
  - intros b src s r. cbn [pItems]. destruct (token true src) as [[t start] rest] eqn:T.
    assert (Other : pbind (pStmt k start) (fun s src => pItems k (b ++ [s]) src) = Ok s r -> length r < length src).
    { pose proof (token_start_length _ _ _ _ _ T). intros Q. apply pbind_ok in Q. destruct Q as (c & s1 & Q1 & Q).
      apply IHs in Q1. apply IHi in Q. lia. }
    destruct t; try exact Other; try discriminate; tok_facts; intros Q; try (apply IHi in Q; lia). injection Q as _ <-. lia.
Qed.

Lemma params_consume k : forall ps src a r, pParams k ps src = Ok a r -> length r < length src.
Proof.
  induction k as [|k IH]; intros ps src a r; [discriminate|]. cbn [pParams].
  destruct (token false src) as [[t start] rest] eqn:T. destruct t; try discriminate; tok_facts.
  - destruct (token false rest) as [[t' start'] rest'] eqn:T'. destruct t'; try discriminate; tok_facts; intros Q.
    + injection Q as _ <-. lia.
    + apply IH in Q. lia.
  - destruct ps; [|discriminate]. intros Q. injection Q as _ <-. lia.
Qed.
Lemma fn_consumes k src f r : pFn k src = Ok f r -> length r < length src.
Proof.
  unfold pFn. destruct (token false src) as [[t start] rest] eqn:T. destruct t; try discriminate; tok_facts.
  destruct (token false rest) as [[t' start'] rest'] eqn:T'. destruct t'; try discriminate; tok_facts.
  intros Q. apply pbind_ok in Q. destruct Q as (ps & s & Q1 & Q). apply params_consume in Q1.
  destruct (token false s) as [[t3 start3] rest3] eqn:T3. destruct t3; try discriminate; tok_facts.
  apply pbind_ok in Q. destruct Q as (b & s4 & Q2 & Q). apply (stmt_consumes k) in Q2. injection Q as _ <-. lia.
Qed.

(** ** Enough depth *)
Lemma pbind_deep {A B} (x : pres A) (f : A -> list Z -> pres B) :
  x <> Deep -> (forall a s, x = Ok a s -> f a s <> Deep) -> pbind x f <> Deep.
Proof. destruct x; cbn; intros N H; auto; discriminate. Qed.

Lemma expr_deep k :
  (forall nl outer src, 4 * length src + 1 <= k -> pExpr k nl outer src <> Deep) /\
  (forall nl outer e0 src, 4 * length src + 1 <= k -> pLoop k nl outer e0 src <> Deep) /\
  (forall src, 4 * length src + 3 <= k -> pArgs k src <> Deep) /\
  (forall args src, 4 * length src + 2 <= k -> pArgList k args src <> Deep) /\
  (forall ps src, 4 * length src + 1 <= k -> pStr k ps src <> Deep).
Proof.
  induction k as [|k (IHe & IHl & IHa & IHb & IHs)]; [repeat split; intros; lia|].
  destruct (expr_consumes k) as (Ce & Cl & Ca & Cb & Cs).
  repeat split.
  - intros nl outer src K. cbn [pExpr]. destruct (token nl src) as [[t start] rest] eqn:T.
    assert (Un : forall op, t <> TEOF -> pbind (pExpr k nl anyLevel rest) (fun e src => pLoop k nl outer (EUn op e) src) <> Deep).
    { intros op N. pose proof (token_rest_length _ _ _ _ _ T N). apply pbind_deep; [apply IHe; lia|].
      intros a s H1. apply Ce in H1. apply IHl. lia. }
    destruct t; cbn [unaryOf]; try discriminate; tok_facts; try (apply Un; discriminate).
    + apply IHl. lia.
    + destruct (sv_to parse_u32 t 0); [|discriminate]. apply IHl. lia.
    + apply pbind_deep; [apply IHs; lia|]. intros a s H1. apply Cs in H1. apply IHl. lia.
    + apply pbind_deep; [apply IHe; lia|]. intros a s H1. apply Ce in H1.
      destruct (token false s) as [[t' start'] rest'] eqn:T'. destruct t'; try discriminate. tok_facts. apply IHl. lia.
  - intros nl outer e0 src K. cbn [pLoop]. destruct (token nl src) as [[t start] rest] eqn:T.
    assert (Op : forall op, t <> TEOF -> (if (outer <=? precedence op)%Z then Ok e0 start
        else pbind (pExpr k nl (precedence op) rest) (fun r src => pLoop k nl outer (EBin op e0 r) src)) <> Deep).
    { intros op N. pose proof (token_rest_length _ _ _ _ _ T N). destruct (outer <=? precedence op)%Z; [discriminate|].
      apply pbind_deep; [apply IHe; lia|]. intros a s H1. apply Ce in H1. apply IHl. lia. }
    destruct t; cbn [binaryOf]; try (apply Op; discriminate); try discriminate; tok_facts.
    + apply pbind_deep; [apply IHa; lia|]. intros a s H1. apply Ca in H1. apply IHl. lia.
    + destruct (token nl rest) as [[t' start'] rest'] eqn:T'. destruct t'; try discriminate. tok_facts. apply IHl. lia.
  - intros src K. cbn [pArgs]. destruct (token false src) as [[t start] rest] eqn:T.
    pose proof (token_start_length _ _ _ _ _ T). destruct t; try (apply IHb; lia). discriminate.
  - intros args src K. cbn [pArgList]. apply pbind_deep; [apply IHe; lia|]. intros x s H1. apply Ce in H1.
    destruct (token false s) as [[t start] rest] eqn:T. destruct t; try discriminate; tok_facts. apply IHb. lia.
  - intros ps src K. cbn [pStr]. destruct (readStr [] src) as [st|] eqn:R; [|discriminate].
    pose proof (readStr_length _ _ _ R) as L. destruct st as [rest|rest|t rest].
    + discriminate.
    + apply pbind_deep; [apply IHe; lia|]. intros x s H1. apply Ce in H1.
      destruct (token false s) as [[t start] rest'] eqn:T. destruct t; try discriminate. tok_facts. apply IHs. lia.
    + apply IHs. assert (length rest < length src); [|lia].
      destruct L as [(_ & [C|C] & _)|(_ & [C|C] & _)]; auto; congruence.
Qed.

Lemma end_deep s src : endOfStatement s src <> Deep.
Proof.
  unfold endOfStatement. destruct (token true src) as [[t start] rest]. destruct t; discriminate.
Qed.
Lemma stmt_deep k :
  (forall src, 4 * length src + 2 <= k -> pStmt k src <> Deep) /\
  (forall src, 4 * length src + 3 <= k -> pBody k src <> Deep) /\
  (forall b src, 4 * length src + 3 <= k -> pItems k b src <> Deep).
Proof.
  induction k as [|k (IHs & IHb & IHi)]; [repeat split; intros; lia|].
  destruct (expr_consumes k) as (Ce & _). destruct (stmt_consumes k) as (Cs & Cb & Ci). destruct (expr_deep k) as (IHe & _).
  repeat split.
  - intros src K. cbn [pStmt]. destruct (token true src) as [[t start] rest] eqn:T. cbv zeta. tok_facts.
    assert (Sh : forall w, bytes_eqb (match t with TIdent n => n | _ => [] end) w = true -> w <> [] -> length rest < length src).
    { intros w E N. apply (token_rest_length _ _ _ _ _ T). intros ->. destruct w; [congruence|discriminate]. }
    destruct (bytes_eqb _ k_if) eqn:E1.
    { specialize (Sh _ E1 ltac:(discriminate)).
      apply pbind_deep; [apply IHe; lia|]. intros c s1 Q1. apply Ce in Q1.
      apply pbind_deep; [apply IHb; lia|]. intros b s2 Q2. apply Cb in Q2.
      destruct (token false s2) as [[t' start'] rest'] eqn:T'. tok_facts.
      destruct t'; try discriminate. destruct (bytes_eqb n k_else); [|discriminate].
      apply pbind_deep; [apply IHb; lia|]. discriminate. }
    destruct (bytes_eqb _ k_while) eqn:E2.
    { specialize (Sh _ E2 ltac:(discriminate)).
      apply pbind_deep; [apply IHe; lia|]. intros c s1 Q1. apply Ce in Q1.
      apply pbind_deep; [apply IHb; lia|]. discriminate. }
    destruct (bytes_eqb _ k_return) eqn:E3.
    { specialize (Sh _ E3 ltac:(discriminate)). apply pbind_deep; [apply IHe; lia|]. discriminate. }
    apply pbind_deep; [apply IHe; lia|]. intros c s1 Q1. apply Ce in Q1.
    destruct (token true s1) as [[t' start'] rest'] eqn:T'. tok_facts.
    destruct t'; try apply end_deep.
    apply pbind_deep; [apply IHe; lia|]. intros. apply end_deep.
  - intros src K. cbn [pBody]. destruct (token false src) as [[t start] rest] eqn:T. pose proof (token_start_length _ _ _ _ _ T).
    assert (Other : pbind (pStmt k start) (fun s src => match s with SReturn _ => Ok [s] src | _ => Reject end) <> Deep).
    { apply pbind_deep; [apply IHs; lia|]. intros c s1 _. destruct c; discriminate. }
    destruct t; try exact Other. tok_facts. apply IHi. lia.
  - intros b src K. cbn [pItems]. destruct (token true src) as [[t start] rest] eqn:T. pose proof (token_start_length _ _ _ _ _ T).
    assert (Other : pbind (pStmt k start) (fun s src => pItems k (b ++ [s]) src) <> Deep).
    { apply pbind_deep; [apply IHs; lia|]. intros c s1 Q1. apply Cs in Q1. apply IHi. lia. }
    destruct t; try exact Other; try discriminate; tok_facts; apply IHi; lia.
Qed.
Lemma params_deep k : forall ps src, 4 * length src + 1 <= k -> pParams k ps src <> Deep.
Proof.
  induction k as [|k IH]; intros ps src K; [lia|]. cbn [pParams].
  destruct (token false src) as [[t start] rest] eqn:T. destruct t; try discriminate; tok_facts.
  - destruct (token false rest) as [[t' start'] rest'] eqn:T'. destruct t'; try discriminate; tok_facts. apply IH. lia.
  - destruct ps; discriminate.
Qed.
Lemma fn_deep k src : 4 * length src + 1 <= k -> pFn k src <> Deep.
Proof.
  intros K. unfold pFn. destruct (token false src) as [[t start] rest] eqn:T. destruct t; try discriminate; tok_facts.
  destruct (token false rest) as [[t' start'] rest'] eqn:T'. destruct t'; try discriminate; tok_facts.
  apply pbind_deep; [apply params_deep; lia|]. intros ps s Q1. apply params_consume in Q1.
  destruct (token false s) as [[t3 start3] rest3] eqn:T3. destruct t3; try discriminate; tok_facts.
  apply pbind_deep; [apply stmt_deep; lia|]. discriminate.
Qed.
Lemma file_deep k : forall fns src, 4 * length src + 1 <= k -> pFile k fns src <> Deep.
Proof.
  induction k as [|k IH]; intros fns src K; [lia|]. cbn [pFile].
  destruct (token false src) as [[t start] rest] eqn:T. destruct t; try discriminate; tok_facts.
  destruct (bytes_eqb n k_fn); [|discriminate].
  apply pbind_deep; [apply fn_deep; lia|]. intros f s Q. apply fn_consumes in Q. apply IH. lia.
Qed.
Theorem parsing_ends src : parseFile src <> Deep.
Proof. apply file_deep. lia. Qed.

(** ** More depth *)
Definition deeper {A} (a b : pres A) : Prop := a = Deep \/ a = b.
Lemma deeper_refl {A} (a : pres A) : deeper a a.
Proof. right. reflexivity. Qed.
#[local] Hint Resolve deeper_refl : core.
Lemma deeper_bind {A B} (a b : pres A) (f g : A -> list Z -> pres B) :
  deeper a b -> (forall x s, deeper (f x s) (g x s)) -> deeper (pbind a f) (pbind b g).
Proof. intros [->| ->] H; [left; reflexivity|]. destruct b; cbn; auto. Qed.

Lemma expr_deeper k :
  (forall nl outer src, deeper (pExpr k nl outer src) (pExpr (S k) nl outer src)) /\
  (forall nl outer e0 src, deeper (pLoop k nl outer e0 src) (pLoop (S k) nl outer e0 src)) /\
  (forall src, deeper (pArgs k src) (pArgs (S k) src)) /\
  (forall args src, deeper (pArgList k args src) (pArgList (S k) args src)) /\
  (forall ps src, deeper (pStr k ps src) (pStr (S k) ps src)).
Proof.
  induction k as [|k (IHe & IHl & IHa & IHb & IHs)]; [repeat split; intros; left; reflexivity|].
  repeat split.
  - intros nl outer src. remember (S k) as k' eqn:Ek. rewrite Ek at 1. cbn [pExpr].
    destruct (token nl src) as [[t start] rest].
    destruct t; cbn [unaryOf]; auto; try (destruct (sv_to parse_u32 t 0); auto); try (apply deeper_bind; auto).
    intros x s. destruct (token false s) as [[[] ?] ?]; auto.
  - intros nl outer e0 src. remember (S k) as k' eqn:Ek. rewrite Ek at 1. cbn [pLoop].
    destruct (token nl src) as [[t start] rest].
    destruct t; cbn [binaryOf]; auto; try (destruct (outer <=? _)%Z; auto); try (apply deeper_bind; auto).
    destruct (token nl rest) as [[[] ?] ?]; auto.
  - intros src. remember (S k) as k' eqn:Ek. rewrite Ek at 1. cbn [pArgs].
    destruct (token false src) as [[[] start] rest]; auto.
  - intros args src. remember (S k) as k' eqn:Ek. rewrite Ek at 1. cbn [pArgList].
    apply deeper_bind; auto. intros x s. destruct (token false s) as [[[] ?] ?]; auto.
  - intros ps src. remember (S k) as k' eqn:Ek. rewrite Ek at 1. cbn [pStr].
    destruct (readStr [] src) as [[]|]; auto. apply deeper_bind; auto.
    intros x s. destruct (token false s) as [[[] ?] ?]; auto.
Qed.
Lemma stmt_deeper k :
  (forall src, deeper (pStmt k src) (pStmt (S k) src)) /\
  (forall src, deeper (pBody k src) (pBody (S k) src)) /\
  (forall b src, deeper (pItems k b src) (pItems (S k) b src)).
Proof.
  induction k as [|k (IHs & IHb & IHi)]; [repeat split; intros; left; reflexivity|].
  destruct (expr_deeper k) as (IHe & _).
  repeat split.
  - intros src. remember (S k) as k' eqn:Ek. rewrite Ek at 1. cbn [pStmt].
    destruct (token true src) as [[t start] rest]. cbv zeta.
    destruct (bytes_eqb _ k_if).
    { apply deeper_bind; auto. intros c s. apply deeper_bind; auto. intros b s2.
      destruct (token false s2) as [[[] ?] ?]; auto. destruct (bytes_eqb _ k_else); auto. apply deeper_bind; auto. }
    destruct (bytes_eqb _ k_while). { apply deeper_bind; auto. intros c s. apply deeper_bind; auto. }
    destruct (bytes_eqb _ k_return). { apply deeper_bind; auto. }
    apply deeper_bind; auto. intros c s. destruct (token true s) as [[[] ?] ?]; auto. apply deeper_bind; auto.
  - intros src. remember (S k) as k' eqn:Ek. rewrite Ek at 1. cbn [pBody].
    destruct (token false src) as [[[] start] rest]; auto; apply deeper_bind; auto.
  - intros b src. remember (S k) as k' eqn:Ek. rewrite Ek at 1. cbn [pItems].
    destruct (token true src) as [[[] start] rest]; auto; apply deeper_bind; auto.
Qed.
Lemma params_deeper k : forall ps src, deeper (pParams k ps src) (pParams (S k) ps src).
Proof.
  induction k as [|k IH]; intros ps src; [left; reflexivity|].
  remember (S k) as k' eqn:Ek. rewrite Ek at 1. cbn [pParams].
  destruct (token false src) as [[[] start] rest]; auto. destruct (token false rest) as [[[] ?] ?]; auto.
Qed.
Lemma fn_deeper k src : deeper (pFn k src) (pFn (S k) src).
Proof.
  unfold pFn. destruct (token false src) as [[[] start] rest]; auto. destruct (token false rest) as [[[] ?] ?]; auto.
  apply deeper_bind; [apply params_deeper|]. intros ps s. destruct (token false s) as [[[] ?] ?]; auto.
  apply deeper_bind; auto. apply stmt_deeper.
Qed.
Lemma file_deeper k : forall fns src, deeper (pFile k fns src) (pFile (S k) fns src).
Proof.
  induction k as [|k IH]; intros fns src; [left; reflexivity|].
  remember (S k) as k' eqn:Ek. rewrite Ek at 1. cbn [pFile].
  destruct (token false src) as [[[] start] rest]; auto. destruct (bytes_eqb _ k_fn); auto.
  apply deeper_bind; auto. subst k'. apply fn_deeper.
Qed.

(** What a parser says at some depth it says at every greater one. *)
Lemma more {A} (p : nat -> pres A) : (forall k, deeper (p k) (p (S k))) ->
  forall k k' a, k <= k' -> p k = a -> a <> Deep -> p k' = a.
Proof.
  intros H k k' a L E N. induction L as [|k' L IH]; auto. destruct (H k') as [C|C]; congruence.
Qed.
Lemma file_settles k src a : pFile k [] src = a -> a <> Deep -> parseFile src = a.
Proof.
  intros H D. unfold parseFile. destruct (Nat.le_ge_cases k (5 * length src + 5)) as [L|L].
  - apply (more (fun k => pFile k [] src)) with k; auto. intros. apply file_deeper.
  - assert (N := parsing_ends src). unfold parseFile in N.
    destruct (pFile (5 * length src + 5) [] src) as [x s| | |] eqn:E; try congruence;
      apply (more (fun k => pFile k [] src) (fun k => file_deeper k [] src) _ k _ L) in E; congruence.
Qed.
Lemma file_says k src fns r : pFile k [] src = Ok fns r -> parseFile src = Ok fns r.
Proof. intros H. apply file_settles with k; [exact H|discriminate]. Qed.
