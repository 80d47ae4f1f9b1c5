(* The parser accepts exactly the documents of PylonGrammar, with their trees (C38). *)
From Coq Require Import Lia ZifyBool.
From Verif Require Import PylonGrammar PylonProofs.

Lemma word_iff c : isAlnumUnit c = true <-> word_char c.
Proof. unfold isAlnumUnit, word_char. lia. Qed.

(* ---- quoted strings ---- *)
Lemma qpre_inv p x t r : qpre p x = QText t r -> exists t', x = QText t' r /\ t = p ++ t'.
Proof. destruct x; cbn; try discriminate. intros H. injection H as <- <-. eauto. Qed.

Lemma quoted_fwd q (Hq : q = 34 \/ q = 39) : forall s n, (length s <= n)%nat -> forall t r,
  (readQuoted q s 0 false = QText t r -> exists b, s = b ++ q :: r /\ pieces q false b t) /\
  (readQuoted q s 2 false = QText t r -> (t = [] /\ r = s /\ (forall s', s <> q :: s')) \/ (exists b, s = q :: b ++ q :: q :: q :: r /\ pieces q true b t)) /\
  (readQuoted q s 1 false = QText t r -> (exists b, b <> [] /\ s = b ++ q :: r /\ pieces q false b t) \/
     (t = [] /\ s = q :: r /\ (forall s', r <> q :: s')) \/ (exists b, s = q :: q :: b ++ q :: q :: q :: r /\ pieces q true b t)) /\
  (forall k, (k <= 2)%nat -> readQuoted q s k true = QText t r -> exists b, repeat q k ++ s = b ++ q :: q :: q :: r /\ pieces q true b t).
Proof.
  intros s n. revert s. induction n as [|n IH]; intros s Hn t r.
  { destruct s; [|cbn in Hn; lia]. cbn. split; [discriminate|]. split; [|split; [discriminate|]].
    - intros H. injection H as <- <-. left. split; [reflexivity|]. split; [reflexivity|discriminate].
    - intros k _. discriminate. }
  destruct s as [|c s].
  { apply IH. cbn. lia. }
  cbn [length] in Hn.
  (* one step of the loop on a byte that is not the quote *)
  assert (Step : forall (multi : bool) (pre : list Z), c <> q ->
    qpre pre (if c =? 255 then QError (c :: s)
         else if (c =? 13) || (c =? 10) then
           if multi then qpre (if c =? 10 then [c] else []) (readQuoted q s 0 multi) else QError (c :: s)
         else if c =? 92 then
           match s with
           | [] => QError []
           | code :: r2 =>
             if (code =? 255) || (code =? 13) || (code =? 10) then QError r2
             else if (code =? 92) || (code =? 39) || (code =? 34) then qpre [code] (readQuoted q r2 0 multi)
             else if code =? 114 then qpre [13] (readQuoted q r2 0 multi)
             else if code =? 110 then qpre [10] (readQuoted q r2 0 multi)
             else if code =? 116 then qpre [9] (readQuoted q r2 0 multi)
             else if code =? 120 then QAssert
             else QError r2
           end
         else qpre [c] (readQuoted q s 0 multi)) = QText t r ->
    exists a v s1 t1, c :: s = a ++ s1 /\ t = pre ++ v ++ t1 /\ piece q multi a v /\ readQuoted q s1 0 multi = QText t1 r /\ (length s1 <= n)%nat /\ a <> []).
  { intros multi pre Nq H. apply qpre_inv in H. destruct H as (t' & H & ->).
    destruct (Z.eqb_spec c 255); [discriminate|].
    destruct ((c =? 13) || (c =? 10)) eqn:Enl.
    - destruct multi; [|discriminate]. apply qpre_inv in H. destruct H as (t1 & H & ->).
      exists [c], (if c =? 10 then [c] else []), s, t1. split; [reflexivity|]. split; [reflexivity|].
      split; [|split; [exact H|split; [lia|discriminate]]].
      destruct (Z.eqb_spec c 10) as [->|]; [apply p_line; reflexivity|]. assert (c = 13) as -> by lia. apply p_return. reflexivity.
    - destruct (Z.eqb_spec c 92) as [->|N92].
      + destruct s as [|code r2]; [discriminate|]. cbn [length] in Hn. destruct ((code =? 255) || (code =? 13) || (code =? 10)); [discriminate|].
        destruct ((code =? 92) || (code =? 39) || (code =? 34)) eqn:Eq.
        { apply qpre_inv in H. destruct H as (t1 & H & ->). exists [92; code], [code], r2, t1. do 2 (split; [reflexivity|]).
          split; [apply p_quote; lia|]. split; [exact H|]. split; [lia|discriminate]. }
        destruct (Z.eqb_spec code 114) as [->|].
        { apply qpre_inv in H. destruct H as (t1 & H & ->). exists [92; 114], [13], r2, t1. do 2 (split; [reflexivity|]).
          split; [apply p_escape_cr|]. split; [exact H|]. split; [lia|discriminate]. }
        destruct (Z.eqb_spec code 110) as [->|].
        { apply qpre_inv in H. destruct H as (t1 & H & ->). exists [92; 110], [10], r2, t1. do 2 (split; [reflexivity|]).
          split; [apply p_escape_lf|]. split; [exact H|]. split; [lia|discriminate]. }
        destruct (Z.eqb_spec code 116) as [->|].
        { apply qpre_inv in H. destruct H as (t1 & H & ->). exists [92; 116], [9], r2, t1. do 2 (split; [reflexivity|]).
          split; [apply p_escape_tab|]. split; [exact H|]. split; [lia|discriminate]. }
        destruct (code =? 120); discriminate.
      + apply qpre_inv in H. destruct H as (t1 & H & ->). exists [c], [c], s, t1. do 2 (split; [reflexivity|]).
        split; [apply p_plain; lia|]. split; [exact H|]. split; [lia|discriminate]. }
  assert (IHs : (length s <= n)%nat) by lia.
  split; [|split; [|split]].
  - cbn [readQuoted]. destruct (Z.eqb_spec c q) as [->|Nq].
    + intros H. injection H as <- <-. exists []. split; [reflexivity|constructor].
    + cbn [negb andb Nat.eqb]. intros H. destruct (Step false [] Nq H) as (a & v & s1 & t1 & E & -> & P & R & L & _).
      destruct (IH s1 L t1 r) as (I1 & _). destruct (I1 R) as (b & -> & Pb). exists (a ++ b). rewrite <- app_assoc. split; [exact E|]. apply (ps_piece q false a v b t1 P Pb).
  - cbn [readQuoted]. destruct (Z.eqb_spec c q) as [->|Nq].
    + cbn [Nat.eqb]. intros H. right. destruct (IH s IHs t r) as (_ & _ & _ & I4). destruct (I4 0%nat ltac:(lia) H) as (b & E & Pb). exists b. cbn [repeat app] in E. subst s. auto.
    + cbn [negb andb Nat.eqb]. intros H. injection H as <- <-. left. split; [reflexivity|]. split; [reflexivity|congruence].
  - cbn [readQuoted]. destruct (Z.eqb_spec c q) as [->|Nq].
    + cbn [Nat.eqb]. intros H. right. destruct (IH s IHs t r) as (_ & I2 & _). destruct (I2 H) as [(-> & -> & N)|(b & -> & Pb)]; [left; auto|right; eauto].
    + cbn [negb andb Nat.eqb]. intros H. left. destruct (Step false [] Nq H) as (a & v & s1 & t1 & E & -> & P & R & L & Na).
      destruct (IH s1 L t1 r) as (I1 & _). destruct (I1 R) as (b & -> & Pb). exists (a ++ b). split; [destruct a; [congruence|discriminate]|].
      rewrite <- app_assoc. split; [exact E|]. apply (ps_piece q false a v b t1 P Pb).
  - intros k Hk. cbn [readQuoted]. destruct (Z.eqb_spec c q) as [->|Nq].
    + destruct (IH s IHs t r) as (_ & _ & _ & I4). destruct k as [|k].
      * intros H. destruct (I4 1%nat ltac:(lia) H) as (b & E & Pb). exists b. split; [exact E|exact Pb].
      * destruct (Nat.eqb_spec (S (S k)) 3) as [E3|N3].
        -- intros H. injection H as <- <-. exists []. split; [|constructor]. assert (k = 1%nat) as -> by lia. reflexivity.
        -- assert (k = 0%nat) as -> by lia. intros H. destruct (I4 2%nat ltac:(lia) H) as (b & E & Pb). exists b. split; [exact E|exact Pb].
    + cbn [negb andb]. intros H. destruct (Step true (repeat q k) Nq H) as (a & v & s1 & t1 & E & -> & P & R & L & _).
      destruct (IH s1 L t1 r) as (_ & _ & _ & I4). destruct (I4 0%nat ltac:(lia) R) as (b & Es1 & Pb). cbn [repeat app] in Es1. subst s1.
      exists (repeat q k ++ a ++ b). split; [rewrite E, <- !app_assoc; reflexivity|]. destruct k as [|k].
      * apply (ps_piece q true a v b t1 P Pb).
      * apply ps_quotes; auto. lia.
Qed.

(** One piece read back. *)
Lemma piece_read q (Hq : q = 34 \/ q = 39) m a v s run : piece q m a v -> (m = true \/ run <> 2%nat) ->
  readQuoted q (a ++ s) run m = qpre (if m then repeat q run else []) (qpre v (readQuoted q s 0 m)).
Proof.
  intros P Hr. assert (Er : negb m && (run =? 2)%nat = false) by (destruct m; [reflexivity|]; destruct (Nat.eqb_spec run 2); [destruct Hr; [discriminate|contradiction]|reflexivity]).
  destruct P as [c N1 N2 N3 N4 N5|c Hc| | | |E|E]; cbn [app readQuoted].
  - destruct (Z.eqb_spec c q); [contradiction|]. rewrite Er. destruct (Z.eqb_spec c 255); [contradiction|]. destruct (Z.eqb_spec c 13); [contradiction|].
    destruct (Z.eqb_spec c 10); [contradiction|]. destruct (Z.eqb_spec c 92); [contradiction|]. reflexivity.
  - destruct (Z.eqb_spec 92 q); [destruct Hq; subst; discriminate|]. rewrite Er. destruct Hc as [->|[->| ->]]; reflexivity.
  - destruct (Z.eqb_spec 92 q); [destruct Hq; subst; discriminate|]. rewrite Er. reflexivity.
  - destruct (Z.eqb_spec 92 q); [destruct Hq; subst; discriminate|]. rewrite Er. reflexivity.
  - destruct (Z.eqb_spec 92 q); [destruct Hq; subst; discriminate|]. rewrite Er. reflexivity.
  - subst m. destruct (Z.eqb_spec 10 q); [destruct Hq; subst; discriminate|]. reflexivity.
  - subst m. destruct (Z.eqb_spec 13 q); [destruct Hq; subst; discriminate|]. reflexivity.
Qed.
Lemma qpre_nil x : qpre [] x = x.
Proof. destruct x; reflexivity. Qed.
Lemma qpre_text p t r : qpre p (QText t r) = QText (p ++ t) r.
Proof. reflexivity. Qed.
Lemma piece_head q m a v : (q = 34 \/ q = 39) -> piece q m a v -> exists c a', a = c :: a' /\ c <> q.
Proof.
  intros Hq [c N1 N2 N3 N4 N5|c Hc| | | |E|E]; eexists; eexists; (split; [reflexivity|]); try assumption; destruct Hq; subst; discriminate.
Qed.
Lemma quotes_read q (Hq : q = 34 \/ q = 39) k s : k = 1%nat \/ k = 2%nat -> readQuoted q (repeat q k ++ s) 0 true = readQuoted q s k true.
Proof. intros [->| ->]; cbn [repeat app readQuoted]; rewrite Z.eqb_refl; cbn [Nat.eqb readQuoted]; rewrite ?Z.eqb_refl; reflexivity. Qed.
Lemma pieces_one q (Hq : q = 34 \/ q = 39) b v r : pieces q false b v -> readQuoted q (b ++ q :: r) 0 false = QText v r.
Proof.
  intros P. remember false as m eqn:Em. induction P as [|a v s w P Ps IH|k a v s w E]; subst.
  - cbn [app readQuoted]. rewrite Z.eqb_refl. reflexivity.
  - rewrite <- app_assoc, (piece_read q Hq false a v _ 0 P) by (right; discriminate). rewrite IH by reflexivity. reflexivity.
  - discriminate.
Qed.
Lemma pieces_first q (Hq : q = 34 \/ q = 39) b v r : b <> [] -> pieces q false b v -> readQuoted q (b ++ q :: r) 1 false = QText v r.
Proof.
  intros N P. inversion P as [|a v' s w Pa Ps|k a v' s w E]; subst; [contradiction| |discriminate].
  rewrite <- app_assoc, (piece_read q Hq false a v' _ 1 Pa) by (right; discriminate). rewrite (pieces_one q Hq s w r Ps). reflexivity.
Qed.
Lemma pieces_three q (Hq : q = 34 \/ q = 39) b v r : pieces q true b v -> readQuoted q (b ++ q :: q :: q :: r) 0 true = QText v r.
Proof.
  intros P. remember true as m eqn:Em. induction P as [|a v s w P Ps IH|k a v s w E Hk P Ps IH]; subst.
  - destruct Hq as [->| ->]; reflexivity.
  - rewrite <- app_assoc, (piece_read q Hq true a v _ 0 P) by (left; reflexivity). rewrite IH by reflexivity. reflexivity.
  - rewrite <- !app_assoc, quotes_read by assumption. rewrite (piece_read q Hq true a v _ k P) by (left; reflexivity). rewrite IH by reflexivity. reflexivity.
Qed.

(* ---- tokens ---- *)
Lemma literal_fwd s : forall l r, readLiteral s = Ok (l, r) -> exists c r', r = c :: r' /\ s = l ++ c :: r' /\ Forall word_char l /\ ~ word_char c.
Proof.
  induction s as [|c s IH]; intros l r; cbn [readLiteral]; [discriminate|]. destruct (isAlnumUnit c) eqn:E.
  - destruct (readLiteral s) as [[l' r']| | | | |]; cbn [bind]; try discriminate. intros H. injection H as <- <-.
    destruct (IH l' r' eq_refl) as (d & r2 & -> & -> & F & N). exists d, r2. split; [reflexivity|]. split; [reflexivity|]. split; [|exact N].
    constructor; [apply word_iff; exact E|exact F].
  - intros H. injection H as <- <-. exists c, s. split; [reflexivity|]. split; [reflexivity|]. split; [constructor|]. rewrite <- word_iff. congruence.
Qed.
Lemma literal_bwd w c r : Forall word_char w -> ~ word_char c -> readLiteral (w ++ c :: r) = Ok (w, c :: r).
Proof.
  intros F N. induction F as [|x w Hx F IH]; cbn [app readLiteral].
  - destruct (isAlnumUnit c) eqn:E; [apply word_iff in E; contradiction|reflexivity].
  - apply word_iff in Hx. rewrite Hx, IH. reflexivity.
Qed.

Definition tstart (t : token) (s r : list Z) : Prop :=
  match t with
  | TOpenCurly => s = 123 :: r | TCloseCurly => s = 125 :: r | TOpenSquare => s = 91 :: r | TCloseSquare => s = 93 :: r
  | TColon => s = 58 :: r | TEquals => s = 61 :: r | TComma => s = 44 :: r | TSemicolon => s = 59 :: r | TNewLine => s = 10 :: r
  | TText v => text_at s v r
  | TEndOfFile => s = r /\ (r = [] \/ exists r', r = 255 :: r')
  | TInvalid | TJunk => True
  end.
Definition skips (nl : bool) (c : Z) : Prop := if nl then blank c else space c.

Lemma token_fwd nl s : forall t r, readToken nl s = Ok (t, r) -> exists p s', s = p ++ s' /\ Forall (skips nl) p /\ tstart t s' r /\ (t = TNewLine -> nl = true).
Proof.
  induction s as [|c s IH]; intros t r; cbn [readToken].
  - intros H. injection H as <- <-. exists [], []. split; [reflexivity|]. split; [constructor|]. split; [split; auto|discriminate].
  - destruct ((c =? 32) || (c =? 9) || (c =? 13)) eqn:Eb.
    { intros H. destruct (IH t r H) as (p & s' & -> & F & T & N). exists (c :: p), s'. split; [reflexivity|]. split; [|auto]. constructor; [|exact F].
      destruct nl; unfold skips, space, blank; lia. }
    destruct (Z.eqb_spec c 10) as [->|N10].
    { destruct nl.
      - intros H. injection H as <- <-. exists [], (10 :: s). split; [reflexivity|]. split; [constructor|]. split; reflexivity.
      - intros H. destruct (IH t r H) as (p & s' & -> & F & T & N). exists (10 :: p), s'. split; [reflexivity|]. split; [|auto]. constructor; [right; reflexivity|exact F]. }
    assert (Here : forall x r, tstart x (c :: s) r -> x <> TNewLine -> exists p s', c :: s = p ++ s' /\ Forall (skips nl) p /\ tstart x s' r /\ (x = TNewLine -> nl = true)).
    { intros x r0 T N. exists [], (c :: s). split; [reflexivity|]. split; [constructor|]. split; [exact T|contradiction]. }
    destruct (Z.eqb_spec c 255) as [->|N255]; [intros H; injection H as <- <-; apply Here; [|discriminate]; split; eauto|].
    destruct (Z.eqb_spec c 123) as [->|]; [intros H; injection H as <- <-; apply Here; [reflexivity|discriminate]|].
    destruct (Z.eqb_spec c 125) as [->|]; [intros H; injection H as <- <-; apply Here; [reflexivity|discriminate]|].
    destruct (Z.eqb_spec c 91) as [->|]; [intros H; injection H as <- <-; apply Here; [reflexivity|discriminate]|].
    destruct (Z.eqb_spec c 93) as [->|]; [intros H; injection H as <- <-; apply Here; [reflexivity|discriminate]|].
    destruct (Z.eqb_spec c 58) as [->|]; [intros H; injection H as <- <-; apply Here; [reflexivity|discriminate]|].
    destruct (Z.eqb_spec c 61) as [->|]; [intros H; injection H as <- <-; apply Here; [reflexivity|discriminate]|].
    destruct (Z.eqb_spec c 44) as [->|]; [intros H; injection H as <- <-; apply Here; [reflexivity|discriminate]|].
    destruct (Z.eqb_spec c 59) as [->|]; [intros H; injection H as <- <-; apply Here; [reflexivity|discriminate]|].
    destruct ((c =? 34) || (c =? 39)) eqn:Eq.
    { assert (Hq : c = 34 \/ c = 39) by lia. destruct (readQuoted c s 1 false) as [v rest|rest|] eqn:ER; [| |discriminate]; intros H; injection H as <- <-; apply Here; try discriminate; [|exact I].
      destruct (quoted_fwd c Hq s (length s) (le_n _) v rest) as (_ & _ & G & _). cbn [tstart].
      destruct (G ER) as [(b & N & -> & P)|[(-> & -> & N)|(b & -> & P)]]; [apply t_string|apply t_empty|apply t_three]; assumption. }
    destruct (isAlnumUnit c) eqn:Ea.
    { destruct (readLiteral (c :: s)) as [[l r']| | | | |] eqn:EL; cbn [bind]; try discriminate. intros H; injection H as <- <-. apply Here; [|discriminate].
      destruct (literal_fwd _ _ _ EL) as (d & r2 & -> & E & F & N). cbn [tstart]. rewrite E. destruct l as [|x l].
      - cbn in E. injection E as -> _. apply word_iff in Ea. contradiction.
      - cbn in E. injection E as -> _. apply t_word; auto. discriminate. }
    intros H. injection H as <- <-. apply Here; [exact I|discriminate].
Qed.

Lemma text_head s v r : text_at s v r -> exists c s', s = c :: s' /\ (c = 34 \/ c = 39 \/ (word_char c /\ c <> 255)).
Proof.
  intros [w c rest N H F Nc|q b v' rest Hq N P|q rest Hq N|q b v' rest Hq P]; try (eexists; eexists; split; [reflexivity|]; tauto).
  destruct w as [|x w]; [contradiction|]. inversion F; subst. exists x, (w ++ c :: rest). split; [reflexivity|]. cbn in H. auto.
Qed.
Lemma text_read nl s v r : text_at s v r -> readToken nl s = Ok (TText v, r).
Proof.
  intros T. pose proof (text_head _ _ _ T) as (c & s' & -> & Hc). assert (Hx : c = 34 \/ c = 39 \/ isAlnumUnit c = true /\ c <> 255 /\ c <> 34 /\ c <> 39) by (rewrite word_iff; unfold word_char in *; lia).
  assert (E : readToken nl (c :: s') = if (c =? 34) || (c =? 39) then
      match readQuoted c s' 1 false with QText t rest => Ok (TText t, rest) | QError rest => Ok (TInvalid, rest) | QAssert => Asserts end
      else bind (readLiteral (c :: s')) (fun '(lit, rest) => Ok (TText lit, rest))).
  { cbn [readToken]. assert (Hn : c <> 32 /\ c <> 9 /\ c <> 13 /\ c <> 10 /\ c <> 255 /\ c <> 123 /\ c <> 125 /\ c <> 91 /\ c <> 93 /\ c <> 58 /\ c <> 61 /\ c <> 44 /\ c <> 59).
    { rewrite word_iff in Hx. unfold word_char in Hx. lia. }
    destruct Hn as (N1 & N2 & N3 & N4 & N5 & N6 & N7 & N8 & N9 & N10 & N11 & N12 & N13).
    repeat match goal with |- context [c =? ?k] => lazymatch k with 34 => fail | 39 => fail | _ => rewrite (proj2 (Z.eqb_neq c k)) by assumption end end. cbn [orb].
    destruct Hx as [->|[->|(Hw & _ & N34 & N39)]]; try reflexivity. rewrite Hw. rewrite (proj2 (Z.eqb_neq c 34)), (proj2 (Z.eqb_neq c 39)) by assumption. reflexivity. }
  rewrite E. clear E Hx Hc. remember (c :: s') as s eqn:Es. destruct T as [w d rest N H F Nd|q b v' rest Hq N P|q rest Hq N|q b v' rest Hq P].
  - destruct w as [|x w]; [contradiction|]. cbn [app] in Es. injection Es as -> <-. inversion F as [|? ? Fx Fw]; subst.
    assert (Q : (c =? 34) || (c =? 39) = false) by (unfold word_char in Fx; lia). rewrite Q.
    rewrite (literal_bwd (c :: w) d rest F Nd). reflexivity.
  - injection Es as -> <-. replace ((c =? 34) || (c =? 39)) with true by lia. rewrite (pieces_first c Hq b v' rest N P). reflexivity.
  - injection Es as -> <-. replace ((c =? 34) || (c =? 39)) with true by lia. cbn [readQuoted]. rewrite Z.eqb_refl. cbn [Nat.eqb].
    destruct rest as [|d rest]; [reflexivity|]. cbn [readQuoted]. destruct (Z.eqb_spec d c) as [->|]; [destruct (N rest eq_refl)|]. reflexivity.
  - injection Es as -> <-. assert (Ew : readQuoted c (c :: c :: b ++ c :: c :: c :: rest) 1 false = readQuoted c (b ++ c :: c :: c :: rest) 0 true) by (destruct Hq as [->| ->]; reflexivity). rewrite Ew.
    replace ((c =? 34) || (c =? 39)) with true by lia. rewrite (pieces_three c Hq b v' rest P). reflexivity.
Qed.
Lemma skip_read nl p s : Forall (skips nl) p -> readToken nl (p ++ s) = readToken nl s.
Proof.
  induction 1 as [|c p Hc F IH]; cbn [app]; [reflexivity|]. rewrite <- IH. cbn [readToken].
  destruct ((c =? 32) || (c =? 9) || (c =? 13)) eqn:E; [reflexivity|]. destruct nl; unfold skips, space, blank in Hc; [lia|].
  assert (c = 10) as -> by lia. reflexivity.
Qed.
Lemma token_bwd nl t s r : tstart t s r -> t <> TInvalid -> t <> TJunk -> (t = TNewLine -> nl = true) -> readToken nl s = Ok (t, r).
Proof.
  intros T N1 N2 Nl. destruct t; try contradiction; cbn [tstart] in T; try (subst s; reflexivity).
  - apply text_read. exact T.
  - subst s. rewrite (Nl eq_refl). reflexivity.
  - destruct T as (-> & [->|(r' & ->)]); reflexivity.
Qed.

(* ---- the parser reads only documents ---- *)
Lemma parser_sound fuel :
  (forall t s n r, readExpression fuel t s = Ok (n, r) -> forall s0, tstart t s0 s -> value_at s0 n r) /\
  (forall items sep s n r, readObject fuel items sep s = Ok (n, r) -> exists l, n = Object (items ++ l) /\ properties_at (map fst items) sep s l r) /\
  (forall items s n r, readArray fuel items s = Ok (n, r) -> exists l, n = Array (items ++ l) /\ items_at s l r).
Proof.
  induction fuel as [|fuel (IE & IO & IA)]; [split; [|split]; intros; discriminate|]. split; [|split].
  - intros t s n r E s0 T. cbn [readExpression] in E. destruct t; try discriminate; cbn [tstart] in T.
    + subst s0. destruct (IO _ _ _ _ _ E) as (l & -> & P). apply v_object. exact P.
    + subst s0. destruct (IA _ _ _ _ E) as (l & -> & P). apply v_array. exact P.
    + injection E as <- <-. apply v_text. exact T.
  - intros items sep s n r E. cbn [readObject] in E. destruct (readToken true s) as [[t s1]| | | | |] eqn:ET; cbn [bind] in E; try discriminate.
    destruct (token_fwd _ _ _ _ ET) as (p & s' & -> & F & T & _). cbn [skips] in F.
    assert (Skip : forall l, properties_at (map fst items) sep s' l r -> properties_at (map fst items) sep (p ++ s') l r).
    { intros l Pl. clear - F Pl. induction F; cbn [app]; [exact Pl|]. apply o_blank; assumption. }
    assert (Sep : forall c, separator c -> s' = c :: s1 -> readObject fuel items true s1 = Ok (n, r) -> exists l, n = Object (items ++ l) /\ properties_at (map fst items) sep (p ++ s') l r).
    { intros c Hc -> E'. destruct (IO _ _ _ _ _ E') as (l & -> & P). exists l. split; [reflexivity|]. apply Skip. apply o_separator; assumption. }
    destruct t as [| | | | | | | | |key| | |]; try discriminate; cbn [tstart] in T.
    + injection E as <- <-. exists []. rewrite app_nil_r. split; [reflexivity|]. apply Skip. subst s'. apply o_close.
    + apply (Sep 44); [unfold separator; auto|exact T|exact E].
    + apply (Sep 59); [unfold separator; auto|exact T|exact E].
    + destruct (negb match items with [] => true | _ :: _ => false end && negb sep) eqn:Es; [discriminate|].
      destruct (has key items) eqn:Eh; [discriminate|]. destruct (Nat.leb_spec 64 (length items)) as [|L64]; [discriminate|].
      destruct (readToken false s1) as [[t2 s2]| | | | |] eqn:ET2; cbn [bind] in E; try discriminate.
      destruct (token_fwd _ _ _ _ ET2) as (p2 & s2' & -> & F2 & T2 & _). cbn [skips] in F2.
      assert (Go : forall c, c = 58 \/ c = 61 -> s2' = c :: s2 ->
        bind (readToken false s2) (fun '(t, s) => bind (readExpression fuel t s) (fun '(v, s) => readObject fuel (items ++ [(key, v)]) false s)) = Ok (n, r) ->
        exists l, n = Object (items ++ l) /\ properties_at (map fst items) sep (p ++ s') l r).
      { intros c Hc -> E'. destruct (readToken false s2) as [[t3 s3]| | | | |] eqn:ET3; cbn [bind] in E'; try discriminate.
        destruct (token_fwd _ _ _ _ ET3) as (p3 & s3' & -> & F3 & T3 & _). cbn [skips] in F3.
        destruct (readExpression fuel t3 s3) as [[v s4]| | | | |] eqn:EE; cbn [bind] in E'; try discriminate.
        pose proof (IE _ _ _ _ EE _ T3) as PV. destruct (IO _ _ _ _ _ E') as (l & -> & P). exists ((key, v) :: l). rewrite <- app_assoc. split; [reflexivity|].
        apply Skip. rewrite map_app in P. cbn [map fst] in P. eapply (o_property _ _ _ _ p2 c p3 s3' v s4); eauto.
        - destruct items; [left; reflexivity|right]. destruct sep; [reflexivity|discriminate].
        - intros Hin. apply has_in in Hin. congruence.
        - rewrite map_length. exact L64. }
      destruct t2; try discriminate; cbn [tstart] in T2; [apply (Go 58)|apply (Go 61)]; auto.
    + apply (Sep 10); [unfold separator; auto|exact T|exact E].
  - intros items s n r E. cbn [readArray] in E. destruct (readToken true s) as [[t s1]| | | | |] eqn:ET; cbn [bind] in E; try discriminate.
    destruct (token_fwd _ _ _ _ ET) as (p & s' & -> & F & T & _). cbn [skips] in F.
    assert (Skip : forall l, items_at s' l r -> items_at (p ++ s') l r).
    { intros l Pl. clear - F Pl. induction F; cbn [app]; [exact Pl|]. apply i_skip; auto. }
    assert (Sep : forall c, separator c -> s' = c :: s1 -> readArray fuel items s1 = Ok (n, r) -> exists l, n = Array (items ++ l) /\ items_at (p ++ s') l r).
    { intros c Hc -> E'. destruct (IA _ _ _ _ E') as (l & -> & P). exists l. split; [reflexivity|]. apply Skip. apply i_skip; auto. }
    assert (Val : bind (readExpression fuel t s1) (fun '(v, s) => readArray fuel (items ++ [v]) s) = Ok (n, r) -> exists l, n = Array (items ++ l) /\ items_at (p ++ s') l r).
    { intros E'. destruct (readExpression fuel t s1) as [[v s4]| | | | |] eqn:EE; cbn [bind] in E'; try discriminate.
      pose proof (IE _ _ _ _ EE _ T) as PV. destruct (IA _ _ _ _ E') as (l & -> & P). exists (v :: l). rewrite <- app_assoc. split; [reflexivity|].
      apply Skip. eapply i_item; eauto. }
    destruct t; try (apply Val; exact E); cbn [tstart] in T.
    + injection E as <- <-. exists []. rewrite app_nil_r. split; [reflexivity|]. apply Skip. subst s'. apply i_close.
    + apply (Sep 44); [unfold separator; auto|exact T|exact E].
    + apply (Sep 59); [unfold separator; auto|exact T|exact E].
    + apply (Sep 10); [unfold separator; auto|exact T|exact E].
Qed.

(* ---- and reads all documents ---- *)
Lemma bind_ok {A B} (x : res A) (k : A -> res B) b : bind x k = Ok b -> exists a, x = Ok a /\ k a = Ok b.
Proof. destruct x; cbn; try discriminate. eauto. Qed.
Lemma bind_mono {A B} (x x' : res A) (k k' : A -> res B) : bind x k <> OutOfFuel -> (x <> OutOfFuel -> x' = x) -> (forall a, k a <> OutOfFuel -> k' a = k a) -> bind x' k' = bind x k.
Proof. intros N Hx Hk. destruct x; cbn in *; try (rewrite Hx by discriminate; cbn; auto; fail). contradiction. Qed.
Lemma fuel_stable f : forall f', (f <= f')%nat ->
  (forall t s, readExpression f t s <> OutOfFuel -> readExpression f' t s = readExpression f t s) /\
  (forall items sep s, readObject f items sep s <> OutOfFuel -> readObject f' items sep s = readObject f items sep s) /\
  (forall items s, readArray f items s <> OutOfFuel -> readArray f' items s = readArray f items s).
Proof.
  induction f as [|f IH]; intros f' Hf; [split; [|split]; intros; cbn in *; contradiction|]. destruct f' as [|f']; [lia|].
  destruct (IH f' ltac:(lia)) as (IE & IO & IA). split; [|split]; intros.
  - cbn [readExpression] in *. destruct t; auto.
  - cbn [readObject] in *. destruct (readToken true s) as [[t s1]| | | | |]; cbn [bind] in *; try reflexivity. destruct t; auto.
    destruct (negb _ && negb sep); [reflexivity|]. destruct (has s0 items); [reflexivity|]. destruct (64 <=? length items)%nat; [reflexivity|].
    destruct (readToken false s1) as [[t2 s2]| | | | |]; cbn [bind] in *; try reflexivity. destruct t2; try reflexivity;
    (destruct (readToken false s2) as [[t3 s3]| | | | |]; cbn [bind] in *; try reflexivity; apply bind_mono; [assumption|apply IE|]; intros [v s4]; apply IO).
  - cbn [readArray] in *. destruct (readToken true s) as [[t s1]| | | | |]; cbn [bind] in *; try reflexivity.
    destruct t; auto; (apply bind_mono; [assumption|apply IE|]; intros [v s4]; apply IA).
Qed.
Lemma fuel_mono f : forall f', (f <= f')%nat ->
  (forall t s x, readExpression f t s = Ok x -> readExpression f' t s = Ok x) /\
  (forall items sep s x, readObject f items sep s = Ok x -> readObject f' items sep s = Ok x) /\
  (forall items s x, readArray f items s = Ok x -> readArray f' items s = Ok x).
Proof. intros f' Hf. destruct (fuel_stable f f' Hf) as (A & B & C). split; [|split]; intros; [rewrite A|rewrite B|rewrite C]; congruence. Qed.

Definition vtok (t : token) : Prop := match t with TOpenCurly | TOpenSquare | TText _ => True | _ => False end.
Lemma parser_complete :
  (forall s n r, value_at s n r -> exists t s1 f, tstart t s s1 /\ vtok t /\ readExpression f t s1 = Ok (n, r)) /\
  (forall s l r, items_at s l r -> forall items, exists f, readArray f items s = Ok (Array (items ++ l), r)) /\
  (forall ks sep s l r, properties_at ks sep s l r -> forall items, map fst items = ks -> exists f, readObject f items sep s = Ok (Object (items ++ l), r)).
Proof.
  apply grammar_ind.
  - intros s v rest T. exists (TText v), rest, 1%nat. split; [exact T|]. split; [exact I|reflexivity].
  - intros s l rest _ IH. destruct (IH []) as (f & E). exists TOpenSquare, s, (S f). split; [reflexivity|]. split; [exact I|exact E].
  - intros s l rest _ IH. destruct (IH [] eq_refl) as (f & E). exists TOpenCurly, s, (S f). split; [reflexivity|]. split; [exact I|exact E].
  - intros c s l rest Hc _ IH items. destruct (IH items) as (f & E). destruct f as [|f]; [discriminate|].
    destruct Hc as [Hb|[->|[->| ->]]].
    + exists (S f). cbn [readArray] in *. change (c :: s) with ([c] ++ s). rewrite skip_read by (constructor; [exact Hb|constructor]). exact E.
    + exists (S (S f)). exact E.
    + exists (S (S f)). exact E.
    + exists (S (S f)). exact E.
  - intros rest items. exists 1%nat. rewrite app_nil_r. reflexivity.
  - intros s x s' l rest _ (t & s1 & f1 & T & V & E1) _ IH items. destruct (IH (items ++ [x])) as (f2 & E2). rewrite <- app_assoc in E2.
    exists (S (Nat.max f1 f2)). cbn [readArray]. rewrite (token_bwd true t s s1 T) by (destruct t; try contradiction; discriminate). cbn [bind].
    destruct (fuel_mono f1 (Nat.max f1 f2) ltac:(lia)) as (M1 & _). destruct (fuel_mono f2 (Nat.max f1 f2) ltac:(lia)) as (_ & _ & M2).
    destruct t; try contradiction; rewrite (M1 _ _ _ E1); cbn [bind]; apply M2; exact E2.
  - intros ks sep c s l rest Hb _ IH items Hk. destruct (IH items Hk) as (f & E). destruct f as [|f]; [discriminate|].
    exists (S f). cbn [readObject] in *. change (c :: s) with ([c] ++ s). rewrite skip_read by (constructor; [exact Hb|constructor]). exact E.
  - intros ks sep c s l rest Hc _ IH items Hk. destruct (IH items Hk) as (f & E). exists (S f). destruct Hc as [->|[->| ->]]; exact E.
  - intros ks sep rest items Hk. exists 1%nat. rewrite app_nil_r. reflexivity.
  - intros ks sep s k p c p' s' x s'' l rest Hs Hn Hl T F Hc F' _ (t & s1 & f1 & Tv & V & E1) _ IH items Hk.
    destruct (IH (items ++ [(k, x)])) as (f2 & E2); [rewrite map_app, Hk; reflexivity|]. rewrite <- app_assoc in E2.
    exists (S (Nat.max f1 f2)). cbn [readObject]. rewrite (text_read true _ _ _ T). cbn [bind].
    replace (negb match items with [] => true | _ :: _ => false end && negb sep) with false.
    2: { destruct Hs as [->| ->]; [|rewrite Bool.andb_false_r; reflexivity]. destruct items; [reflexivity|discriminate]. }
    assert (Eh : has k items = false). { destruct (has k items) eqn:Q; [|reflexivity]. apply has_in in Q. rewrite Hk in Q. contradiction. }
    rewrite Eh. rewrite <- Hk, map_length in Hl. destruct (Nat.leb_spec 64 (length items)); [lia|].
    rewrite (skip_read false p) by exact F.
    destruct (fuel_mono f1 (Nat.max f1 f2) ltac:(lia)) as (M1 & _). destruct (fuel_mono f2 (Nat.max f1 f2) ltac:(lia)) as (_ & M2 & _).
    destruct Hc as [->| ->]; cbn [readToken Z.eqb Pos.eqb orb bind]; rewrite (skip_read false p') by exact F';
    (rewrite (token_bwd false t s' s1 Tv) by (destruct t; try contradiction; discriminate); cbn [bind]; rewrite (M1 _ _ _ E1); cbn [bind]; apply M2; exact E2).
Qed.

Theorem parse_document s n : parse s = Ok (Some n) <-> document s n.
Proof.
  split.
  - unfold parse. intros H. apply bind_ok in H. destruct H as ([t s1] & ET & H). apply bind_ok in H. destruct H as ([root s2] & EE & H).
    apply bind_ok in H. destruct H as ([next s3] & EN & H). destruct next; try discriminate. injection H as ->.
    destruct (token_fwd _ _ _ _ ET) as (p & s' & -> & F & T & _). destruct (token_fwd _ _ _ _ EN) as (q & s'' & -> & Fq & (-> & Tq) & _).
    exists p, s', q, s3. split; [reflexivity|]. split; [exact F|]. split; [|split; [exact Fq|exact Tq]].
    destruct (parser_sound (2 * length (p ++ s') + 2)) as (PE & _). apply (PE _ _ _ _ EE). exact T.
  - intros (p & s' & q & rest & -> & F & V & Fq & R). destruct (proj1 parser_complete _ _ _ V) as (t & s1 & f & T & Vt & E).
    unfold parse. rewrite (skip_read false p) by exact F. rewrite (token_bwd false t s' s1 T) by (destruct t; try contradiction; discriminate). cbn [bind].
    assert (EE : readExpression (2 * length (p ++ s') + 2) t s1 = Ok (n, q ++ rest)).
    { pose proof (parse_ends (p ++ s')) as PE. unfold parse in PE. rewrite (skip_read false p) in PE by exact F. rewrite (token_bwd false t s' s1 T) in PE by (destruct t; try contradiction; discriminate). cbn [bind] in PE.
      destruct (fuel_mono f (Nat.max f (2 * length (p ++ s') + 2)) ltac:(lia)) as (M & _). specialize (M _ _ _ E).
      destruct (fuel_stable (2 * length (p ++ s') + 2) (Nat.max f (2 * length (p ++ s') + 2)) ltac:(lia)) as (St & _). rewrite St in M; [exact M|].
      intros O. rewrite O in PE. apply PE. reflexivity. }
    rewrite EE. cbn [bind]. rewrite (skip_read false q) by exact Fq.
    rewrite (token_bwd false TEndOfFile rest rest) by (try discriminate; split; auto). reflexivity.
Qed.

Theorem parse_trailing s : parse s = Ok None -> exists p s' n r, s = p ++ s' /\ Forall space p /\ value_at s' n r /\ ~ document s n.
Proof.
  intros H. assert (D : forall n, ~ document s n) by (intros n X; apply parse_document in X; congruence).
  unfold parse in H. apply bind_ok in H. destruct H as ([t s1] & ET & H). apply bind_ok in H. destruct H as ([root s2] & EE & H).
  destruct (token_fwd _ _ _ _ ET) as (p & s' & -> & F & T & _). exists p, s', root, s2. split; [reflexivity|]. split; [exact F|].
  split; [|apply D]. destruct (parser_sound (2 * length (p ++ s') + 2)) as (PE & _). apply (PE _ _ _ _ EE). exact T.
Qed.
