(* Only strings can make the parser fail an assertion. *)
From Coq Require Import Lia ZifyBool ZifyNat.
From Verif Require Import CrowbarParse CrowbarText CrowbarTok CrowbarEnds CrowbarRead.
From Verif Require Import NumTextSpec.

Definition unquoted (s : list Z) : Prop := ~ In 34 s.
Lemma span_in f s a b c : span f s = (a, b) -> In c a \/ In c b -> In c s.
Proof. intros E. pose proof (span_length f s) as S. rewrite E in S. destruct S as [-> _]. apply in_or_app. Qed.
Lemma span_all f s a b : span f s = (a, b) -> Forall (fun c => f c = true) a.
Proof. intros E. pose proof (span_stop f s) as S. rewrite E in S. apply Forall_forall. rewrite forallb_forall in S. apply S. Qed.

Definition fine (t : tok) (start rest : list Z) : Prop :=
  unquoted start /\ unquoted rest /\
  match t with TBegin => False | TNum n => n <> [] /\ Forall (fun c => 48 <= c <= 57) n | _ => True end.
Lemma readTok_fine nl src : forall m, unquoted src -> let '(t, st, r) := readTok nl m src in fine t st r.
Proof.
  induction src as [src IH] using list_strong. intros m U.
  destruct src as [|c r]; [destruct m; cbn; repeat split; auto|].
  assert (Ur : unquoted r) by (intros I; apply U; right; exact I).
  assert (Ind : forall m' r', (length r' < length (c :: r))%nat -> unquoted r' -> let '(t, st, r) := readTok nl m' r' in fine t st r)
    by (intros; apply IH; auto).
  clear IH.
  assert (Btw : let '(t, st, r) := readTok nl Between (c :: r) in fine t st r).
  { assert (N : (c =? 34) = false) by (apply Z.eqb_neq; intros ->; apply U; left; reflexivity).
    assert (Tl : forall d r', unquoted (d :: r') -> unquoted r') by (intros d r' H I; apply H; right; exact I).
    cbn [readTok]. unfold oneOrTwo. rewrite N.
    destruct (identStart c).
    { destruct (span identChar r) as [a b] eqn:E. split; auto. split; auto. intros I. apply Ur. eapply span_in; eauto. }
    destruct (isDigit c) eqn:D.
    { destruct (span isDigit r) as [a b] eqn:E. split; auto. split.
      - intros I. apply Ur. eapply span_in; eauto.
      - split; [discriminate|]. constructor; [unfold isDigit in D; lia|]. eapply Forall_impl; [|eapply span_all; eauto].
        intros x. unfold isDigit. cbn. lia. }
    branch; try (apply Ind; [cbn; lia|eauto]); repeat split; eauto. }
  destruct m; auto.
  - cbn [readTok] in Btw |- *. destruct (c =? 10); [exact Btw|]. apply Ind; [cbn; lia|auto].
  - cbn [readTok]. destruct (star && (c =? 47)); apply Ind; auto; cbn; lia.
Qed.
Lemma token_fine nl src t st r : unquoted src -> token nl src = (t, st, r) -> fine t st r.
Proof. intros U T. pose proof (readTok_fine nl src Between U) as F. unfold token in T. rewrite T in F. exact F. Qed.

Lemma digits_denote t : Forall (fun c => 48 <= c <= 57) t -> exists v, denotes 10 t v.
Proof.
  induction t as [|c t IH] using rev_ind; intros F; [exists 0; constructor|].
  apply Forall_app in F. destruct F as [F1 F2]. inversion F2; subst. destruct (IH F1) as [v V].
  exists (v * 10 + (c - 48)). apply den_snoc; auto; [left; lia|lia].
Qed.
Lemma number_some t : t <> [] -> Forall (fun c => 48 <= c <= 57) t -> exists v, sv_to parse_u32 t 0 = Some v.
Proof. intros N F. destruct (digits_denote t F) as [v V]. rewrite (number_value t v) by auto. eauto. Qed.

Definition sound {A} (x : pres A) : Prop := match x with Broken => False | Ok _ r => unquoted r | _ => True end.
Lemma sound_bind {A B} (x : pres A) (f : A -> list Z -> pres B) :
  sound x -> (forall a s, unquoted s -> sound (f a s)) -> sound (pbind x f).
Proof. destruct x; cbn; auto. Qed.

Ltac fine_tok T U := let F := fresh "F" in pose proof (token_fine _ _ _ _ _ U T) as F;
  let U1 := fresh "U" in let U2 := fresh "U" in let U3 := fresh "C" in destruct F as (U1 & U2 & U3).

Lemma expr_sound k :
  (forall nl outer src, unquoted src -> sound (pExpr k nl outer src)) /\
  (forall nl outer e0 src, unquoted src -> sound (pLoop k nl outer e0 src)) /\
  (forall src, unquoted src -> sound (pArgs k src)) /\
  (forall args src, unquoted src -> sound (pArgList k args src)).
Proof.
  induction k as [|k (IHe & IHl & IHa & IHb)]; [repeat split; intros; exact I|].
  repeat split.
  - intros nl outer src U. cbn [pExpr]. destruct (token nl src) as [[t start] rest] eqn:T. fine_tok T U.
    destruct t; cbn [unaryOf]; try exact I; try contradiction; auto.
    + destruct C as [N F]. destruct (number_some t N F) as [v ->]. auto.
    + apply sound_bind; auto. intros e s Us. destruct (token false s) as [[t' start'] rest'] eqn:T'. fine_tok T' Us.
      destruct t'; cbn; auto.
    + apply sound_bind; auto.
    + apply sound_bind; auto.
    + apply sound_bind; auto.
  - intros nl outer e0 src U. cbn [pLoop]. destruct (token nl src) as [[t start] rest] eqn:T. fine_tok T U.
    destruct t; cbn [binaryOf]; try exact U0; try (destruct (outer <=? _); [exact U0|]; apply sound_bind; auto).
    + apply sound_bind; auto.
    + destruct (token nl rest) as [[t' start'] rest'] eqn:T'. fine_tok T' U1. destruct t'; cbn; auto.
  - intros src U. cbn [pArgs]. destruct (token false src) as [[t start] rest] eqn:T. fine_tok T U. destruct t; auto.
  - intros args src U. cbn [pArgList]. apply sound_bind; auto. intros e s Us.
    destruct (token false s) as [[t' start'] rest'] eqn:T'. fine_tok T' Us. destruct t'; cbn; auto.
Qed.
Lemma end_sound s src : unquoted src -> sound (endOfStatement s src).
Proof.
  intros U. unfold endOfStatement. destruct (token true src) as [[t start] rest] eqn:T. fine_tok T U. destruct t; cbn; auto.
Qed.
Lemma stmt_sound k :
  (forall src, unquoted src -> sound (pStmt k src)) /\
  (forall src, unquoted src -> sound (pBody k src)) /\
  (forall b src, unquoted src -> sound (pItems k b src)).
Proof.
  induction k as [|k (IHs & IHb & IHi)]; [repeat split; intros; exact I|].
  destruct (expr_sound k) as (IHe & _).
  repeat split.
  - intros src U. cbn [pStmt]. destruct (token true src) as [[t start] rest] eqn:T. cbv zeta. fine_tok T U.
    destruct (bytes_eqb _ k_if).
    { apply sound_bind; auto. intros c s Us. apply sound_bind; auto. intros b s2 Us2.
      destruct (token false s2) as [[t' start'] rest'] eqn:T'. fine_tok T' Us2.
      destruct t'; try exact U2. destruct (bytes_eqb _ k_else); [|exact U2]. apply sound_bind; auto. }
    destruct (bytes_eqb _ k_while). { apply sound_bind; auto. intros c s Us. apply sound_bind; auto. }
    destruct (bytes_eqb _ k_return). { apply sound_bind; auto. }
    apply sound_bind; auto. intros c s Us. destruct (token true s) as [[t' start'] rest'] eqn:T'. fine_tok T' Us.
    destruct t'; try (apply end_sound; exact U2). apply sound_bind; auto. intros. apply end_sound. auto.
  - intros src U. cbn [pBody]. destruct (token false src) as [[t start] rest] eqn:T. fine_tok T U.
    destruct t; auto; apply sound_bind; auto; intros c s Us; destruct c; cbn; auto.
  - intros b src U. cbn [pItems]. destruct (token true src) as [[t start] rest] eqn:T. fine_tok T U.
    destruct t; try exact I; auto; apply sound_bind; auto.
Qed.
Lemma params_sound k : forall ps src, unquoted src -> sound (pParams k ps src).
Proof.
  induction k as [|k IH]; intros ps src U; [exact I|]. cbn [pParams].
  destruct (token false src) as [[t start] rest] eqn:T. fine_tok T U. destruct t; try exact I.
  - destruct (token false rest) as [[t' start'] rest'] eqn:T'. fine_tok T' U1. destruct t'; cbn; auto.
  - destruct ps; cbn; auto.
Qed.
Lemma fn_sound k src : unquoted src -> sound (pFn k src).
Proof.
  intros U. unfold pFn. destruct (token false src) as [[t start] rest] eqn:T. fine_tok T U. destruct t; try exact I.
  destruct (token false rest) as [[t' start'] rest'] eqn:T'. fine_tok T' U1. destruct t'; try exact I.
  apply sound_bind; [apply params_sound; auto|]. intros ps s Us.
  destruct (token false s) as [[t3 start3] rest3] eqn:T3. fine_tok T3 Us. destruct t3; try exact I.
  apply sound_bind; [apply stmt_sound; auto|]. auto.
Qed.
Lemma file_sound k : forall fns src, unquoted src -> sound (pFile k fns src).
Proof.
  induction k as [|k IH]; intros fns src U; [exact I|]. cbn [pFile].
  destruct (token false src) as [[t start] rest] eqn:T. fine_tok T U. destruct t; try exact I; auto.
  destruct (bytes_eqb n k_fn); [|exact I]. apply sound_bind; [apply fn_sound; auto|auto].
Qed.
Theorem only_strings_break src : unquoted src -> parseFile src <> Broken.
Proof. intros U E. pose proof (file_sound (5 * length src + 5) [] src U) as S. fold (parseFile src) in S. rewrite E in S. exact S. Qed.
