(* Lemmas on the tokenizer. *)
From Coq Require Import Lia ZifyBool ZifyNat.
From Verif Require Import CrowbarParse CrowbarText.

Lemma list_strong {A} (P : list A -> Prop) :
  (forall l, (forall l', (length l' < length l)%nat -> P l') -> P l) -> forall l, P l.
Proof.
  intros H l. apply H. induction l as [|a l IH]; cbn; intros l' L; [lia|].
  apply H. intros l'' L'. apply IH. lia.
Qed.

Lemma span_length f s : let '(a, b) := span f s in s = a ++ b /\ (length b <= length s)%nat.
Proof.
  induction s as [|c s IH]; cbn; auto. destruct (f c); [|cbn; auto].
  destruct (span f s) as [a b]. destruct IH as [-> L]. cbn [length app]. split; [reflexivity|]. lia.
Qed.
Lemma span_stop f s : let '(a, b) := span f s in forallb f a = true /\ match b with [] => True | c :: _ => f c = false end.
Proof.
  induction s as [|c s IH]; cbn; auto. destruct (f c) eqn:E; [|cbn; auto].
  destruct (span f s) as [a b]. cbn. rewrite E. exact IH.
Qed.
Lemma span_app f a b : forallb f a = true -> match b with [] => True | c :: _ => f c = false end -> span f (a ++ b) = (a, b).
Proof.
  induction a as [|c a IH]; cbn; intros H N.
  - destruct b as [|c b]; auto. cbn. rewrite N. reflexivity.
  - apply andb_true_iff in H. destruct H as [-> H]. rewrite IH by auto. reflexivity.
Qed.

(** The branches of [readTok] between tokens, by cases. *)
Ltac branch :=
  repeat match goal with
  | |- context [if ?b then _ else _] =>
      match b with context [if _ then _ else _] => fail 1 | _ => destruct b eqn:?; cbv iota end
  | |- context [match ?l with [] => _ | _ :: _ => _ end] => destruct l; cbv iota
  end.

(** The token starts at [start] whatever lay before, and it is never longer than the source. *)
Lemma readTok_start nl src : forall m, let '(t, start, rest) := readTok nl m src in
  readTok nl Between start = (t, start, rest) /\ (length start <= length src)%nat /\
  match t with TEOF => start = [] /\ rest = [] | _ => (length rest < length start)%nat end.
Proof.
  induction src as [src IH] using list_strong. intros m.
  destruct src as [|c r]; [destruct m; cbn; auto|].
  assert (Ind : forall m' r', (length r' < length (c :: r))%nat ->
    let '(t, start, rest) := readTok nl m' r' in
    readTok nl Between start = (t, start, rest) /\ (length start <= length (c :: r))%nat /\
    match t with TEOF => start = [] /\ rest = [] | _ => (length rest < length start)%nat end).
  { intros m' r' L. specialize (IH r' L m'). destruct (readTok nl m' r') as [[t start] rest].
    destruct IH as (A & B & C). split; auto. split; auto. lia. }
  clear IH.
  assert (Btw : let '(t, start, rest) := readTok nl Between (c :: r) in
    readTok nl Between start = (t, start, rest) /\ (length start <= length (c :: r))%nat /\
    match t with TEOF => start = [] /\ rest = [] | _ => (length rest < length start)%nat end).
  { destruct (readTok nl Between (c :: r)) as [[t start] rest] eqn:E. pose proof E as E0. cbn [readTok] in E. revert E.
    assert (Self : forall t' r', (t', c :: r, r') = (t, start, rest) -> (length r' < length (c :: r))%nat -> t' <> TEOF ->
      readTok nl Between start = (t, start, rest) /\ (length start <= length (c :: r))%nat /\
      match t with TEOF => start = [] /\ rest = [] | _ => (length rest < length start)%nat end).
    { intros t' r' Q L N. injection Q as -> <- ->. split; [exact E0|]. split; [lia|]. destruct t; auto. congruence. }
    destruct (identStart c).
    { pose proof (span_length identChar r) as S. destruct (span identChar r) as [a b]. intros Q.
      apply (Self _ _ Q); [cbn; lia | discriminate]. }
    destruct (isDigit c).
    { pose proof (span_length isDigit r) as S. destruct (span isDigit r) as [a b]. intros Q.
      apply (Self _ _ Q); [cbn; lia | discriminate]. }
    assert (Sub : forall m' r', (length r' < length (c :: r))%nat -> readTok nl m' r' = (t, start, rest) ->
      readTok nl Between start = (t, start, rest) /\ (length start <= length (c :: r))%nat /\
      match t with TEOF => start = [] /\ rest = [] | _ => (length rest < length start)%nat end).
    { intros m' r' L Q. specialize (Ind m' r' L). rewrite Q in Ind. exact Ind. }
    unfold oneOrTwo. branch; intros Q;
      first [ apply (Self _ _ Q); [cbn; lia | discriminate] | apply (Sub _ _) in Q; [exact Q | cbn; lia] ]. }
  destruct m.
  - exact Btw.
  - cbn [readTok]. cbn [readTok] in Btw. destruct (c =? 10) eqn:E10; [exact Btw|]. apply Ind. cbn. lia.
  - cbn [readTok]. destruct (star && (c =? 47)); apply Ind; cbn; lia.
Qed.

Lemma token_start nl src t start rest : token nl src = (t, start, rest) -> token nl start = (t, start, rest).
Proof. intros H. pose proof (readTok_start nl src Between) as S. unfold token in *. rewrite H in S. apply S. Qed.
Lemma token_start_length nl src t start rest : token nl src = (t, start, rest) -> (length start <= length src)%nat.
Proof. intros H. pose proof (readTok_start nl src Between) as S. unfold token in *. rewrite H in S. apply S. Qed.
Lemma token_rest_length nl src t start rest : token nl src = (t, start, rest) -> t <> TEOF -> (length rest < length src)%nat.
Proof.
  intros H N. pose proof (readTok_start nl src Between) as S. unfold token in *. rewrite H in S.
  destruct S as (_ & A & B). destruct t; try lia. congruence.
Qed.
Lemma token_rest_le nl src t start rest : token nl src = (t, start, rest) -> (length rest <= length src)%nat.
Proof.
  intros H. pose proof (readTok_start nl src Between) as S. unfold token in *. rewrite H in S.
  destruct S as (_ & A & B). destruct t; try lia. destruct B as [_ ->]. cbn. lia.
Qed.

(** ** Gaps *)
Lemma inC_skip nl t g : forall star, (forall a b, t <> a ++ [42; 47] ++ b) -> (star = true -> forall u, t <> 47 :: u) ->
  readTok nl (InC star) (t ++ [42; 47] ++ g) = readTok nl Between g.
Proof.
  induction t as [|c t IH]; intros star N S.
  - cbn [app readTok]. change (42 =? 47) with false. rewrite andb_false_r. reflexivity.
  - cbn [app readTok]. destruct (star && (c =? 47)) eqn:E.
    + apply andb_true_iff in E. destruct E as [-> E]. apply Z.eqb_eq in E. subst c. exfalso. eapply S; reflexivity.
    + apply IH.
      * intros a b ->. apply (N (c :: a) b). reflexivity.
      * intros E' u ->. apply Z.eqb_eq in E'. subst c. apply (N [] u). reflexivity.
Qed.
Lemma inLine_skip nl t g : ~ In 10 t -> readTok nl InLine (t ++ 10 :: g) = readTok nl Between (10 :: g).
Proof.
  induction t as [|c t IH]; intros N.
  - reflexivity.
  - cbn [app readTok]. destruct (c =? 10) eqn:E.
    + apply Z.eqb_eq in E. subst. exfalso. apply N. left. reflexivity.
    + apply IH. intros I. apply N. right. exact I.
Qed.

Lemma gap_skip nl g s : gap nl g -> token nl (g ++ s) = token nl s.
Proof.
  unfold token. induction 1 as [|c g B G IH|t g N G IH|g E G IH|t g E N G IH].
  - reflexivity.
  - rewrite <- IH. destruct B as [->|[->| ->]]; reflexivity.
  - rewrite <- IH. rewrite <- !app_assoc. cbn [app]. cbn [readTok]. apply (inC_skip nl t (g ++ s) false); auto. discriminate.
  - subst nl. rewrite <- IH. reflexivity.
  - subst nl. rewrite <- IH. rewrite <- !app_assoc. cbn [app].
    transitivity (readTok false InLine (t ++ 10 :: g ++ s)); [reflexivity|]. rewrite inLine_skip by exact N. reflexivity.
Qed.

(** Where ends of lines are tokens, a gap that contains one ends there. *)
Lemma gap_line_end g s : gap false g ->
  token true (g ++ s) = token true s \/
  exists g', gap false g' /\ token true (g ++ s) = (TNewLine, 10 :: g' ++ s, g' ++ s).
Proof.
  unfold token. induction 1 as [|c g B G IH|t g N G IH|g E G IH|t g E N G IH].
  - left. reflexivity.
  - assert (E : readTok true Between ((c :: g) ++ s) = readTok true Between (g ++ s))
      by (destruct B as [->|[->| ->]]; reflexivity). rewrite E. exact IH.
  - rewrite <- !app_assoc. cbn [app].
    assert (E : readTok true Between (47 :: 42 :: t ++ 42 :: 47 :: g ++ s) = readTok true Between (g ++ s)).
    { cbn [readTok]. apply (inC_skip true t (g ++ s) false); auto. discriminate. }
    rewrite E. exact IH.
  - right. exists g. split; auto.
  - right. exists g. split; auto. rewrite <- !app_assoc. cbn [app].
    transitivity (readTok true InLine (t ++ 10 :: g ++ s)); [reflexivity|]. rewrite inLine_skip by exact N. reflexivity.
Qed.
Lemma eol_token l s : eol l -> token true (l ++ s) = (TNewLine, 10 :: s, s).
Proof.
  intros [|t N]; [reflexivity|]. rewrite <- !app_assoc. cbn [app]. unfold token.
  transitivity (readTok true InLine (t ++ 10 :: s)); [reflexivity|]. rewrite inLine_skip by exact N. reflexivity.
Qed.

(** ** Names and numbers *)
Lemma identStart_letter c : letter c <-> identStart c = true.
Proof. unfold letter, identStart. lia. Qed.
Lemma identChar_letter c : letterOrDigit c <-> identChar c = true.
Proof. unfold letterOrDigit, letter, identChar, identStart, isDigit. lia. Qed.
Lemma apart_stop s : apart s -> match s with [] => True | c :: _ => identChar c = false end.
Proof.
  destruct s as [|c s]; auto. cbn. rewrite identChar_letter. destruct (identChar c); auto. congruence.
Qed.
Lemma apart_stop_digit s : apart s -> match s with [] => True | c :: _ => isDigit c = false end.
Proof.
  intros A. apply apart_stop in A. destruct s as [|c s]; auto. unfold identChar in A. apply orb_false_iff in A. apply A.
Qed.
Lemma word_token nl n s : match n with [] => False | c :: r => letter c /\ Forall letterOrDigit r end -> apart s ->
  token nl (n ++ s) = (TIdent n, n ++ s, s).
Proof.
  destruct n as [|c n]; [contradiction|]. intros [L F] A. unfold token. cbn [app readTok].
  apply identStart_letter in L. rewrite L. rewrite span_app; auto.
  - apply forallb_forall. intros x I. rewrite Forall_forall in F. apply identChar_letter. auto.
  - apply apart_stop. exact A.
Qed.
Lemma number_token nl t s : t <> [] -> Forall (fun c => 48 <= c <= 57) t -> apart s ->
  token nl (t ++ s) = (TNum t, t ++ s, s).
Proof.
  destruct t as [|c t]; [congruence|]. intros _ F A. inversion F as [|? ? D F']; subst. unfold token. cbn [app readTok].
  assert (E : identStart c = false) by (unfold identStart; lia). rewrite E.
  assert (E' : isDigit c = true) by (unfold isDigit; lia). rewrite E'. rewrite span_app; auto.
  - apply forallb_forall. intros x I. rewrite Forall_forall in F'. apply F' in I. unfold isDigit. lia.
  - apply apart_stop_digit. exact A.
Qed.

(** ** Strings *)
Lemma readStr_literal l s : literal l s -> forall acc u,
  (forall v, u <> 123 :: v) -> readStr acc (s ++ u) = readStr (acc ++ l) u.
Proof.
  induction 1 as [|c l s L IH|c l s N1 N2 N3 L IH]; intros acc u U.
  - rewrite app_nil_r. reflexivity.
  - cbn [app readStr]. change (92 =? 92) with true. cbv iota. rewrite IH by exact U. rewrite <- app_assoc. reflexivity.
  - cbn [app readStr]. destruct (c =? 92) eqn:E1; [apply Z.eqb_eq in E1; congruence|].
    destruct (c =? 34) eqn:E2; [apply Z.eqb_eq in E2; congruence|].
    destruct (c =? 36) eqn:E3.
    + apply Z.eqb_eq in E3. subst c.
      assert (Q : readStr (acc ++ [36]) (s ++ u) = readStr (acc ++ 36 :: l) u).
      { rewrite IH by exact U. rewrite <- app_assoc. reflexivity. }
      destruct (s ++ u) as [|d v] eqn:Es; [exact Q|]. destruct (d =? 123) eqn:Ed; [|exact Q].
      apply Z.eqb_eq in Ed. subst d. exfalso. destruct s as [|d s]; cbn in Es.
      * eapply U. exact Es.
      * injection Es as -> _. eapply N3; reflexivity.
    + rewrite IH by exact U. rewrite <- app_assoc. reflexivity.
Qed.

(** A string never runs past its source. *)
Lemma readStr_length src : forall acc r, readStr acc src = Some r ->
  match r with
  | SEnd rest | SEmbed rest => (length rest < length src)%nat
  | SLit t rest => (length rest <= length src)%nat /\ (acc <> [] \/ (length rest < length src)%nat) /\
      (exists u, rest = 34 :: u) \/ (length rest <= length src)%nat /\ (acc <> [] \/ (length rest < length src)%nat) /\ exists u, rest = 36 :: 123 :: u
  end.
Proof.
  induction src as [src IH] using list_strong. intros acc r.
  destruct src as [|c s]; [discriminate|]. cbn [readStr].
  assert (Ind : forall acc' s', (length s' < length (c :: s))%nat -> acc' <> [] -> readStr acc' s' = Some r ->
    match r with
    | SEnd rest | SEmbed rest => (length rest < length (c :: s))%nat
    | SLit t rest => (length rest <= length (c :: s))%nat /\ (acc <> [] \/ (length rest < length (c :: s))%nat) /\
        (exists u, rest = 34 :: u) \/ (length rest <= length (c :: s))%nat /\ (acc <> [] \/ (length rest < length (c :: s))%nat) /\ exists u, rest = 36 :: 123 :: u
    end).
  { intros acc' s' L N H. specialize (IH s' L acc' r H). destruct r; try lia.
    destruct IH as [(A & B & C)|(A & B & C)]; [left|right]; (split; [lia|]; split; [right; lia | exact C]). }
  assert (NN : forall x : Z, acc ++ [x] <> []) by (intros x E; apply app_eq_nil in E; destruct E; discriminate).
  destruct (c =? 92).
  { destruct s as [|d s]; [discriminate|]. apply Ind; [cbn; lia | apply NN]. }
  destruct (c =? 34) eqn:E34.
  { apply Z.eqb_eq in E34. subst c. destruct acc as [|x acc]; intros Q; injection Q as <-; [cbn; lia|].
    left. split; [cbn; lia|]. split; [left; discriminate | eexists; reflexivity]. }
  destruct (c =? 36) eqn:E36.
  { apply Z.eqb_eq in E36. subst c. destruct s as [|d s]; [discriminate|].
    destruct (d =? 123) eqn:E123.
    - apply Z.eqb_eq in E123. subst d. destruct acc as [|x acc]; intros Q; injection Q as <-; [cbn; lia|].
      right. split; [cbn; lia|]. split; [left; discriminate | eexists; reflexivity].
    - apply Ind; [cbn; lia | apply NN]. }
  apply Ind; [cbn; lia | apply NN].
Qed.
