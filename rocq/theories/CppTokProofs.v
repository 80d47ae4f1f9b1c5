(* The tokenizer: what it takes, that it ends. *)
From Coq Require Import Lia ZifyBool ZifyNat.
From Coq Require Import String.
From Verif Require Import Txt CppTokModel CppTokSpec ScanProofs.
Local Open Scope string_scope.
Local Open Scope list_scope.
Local Open Scope Z_scope.
Local Notation length := List.length.

Definition suf (rest s : list Z) : Prop := exists u, s = u ++ rest.
Lemma suf_refl s : suf s s. Proof. exists []; reflexivity. Qed.
Lemma suf_cons c r s : suf r s -> suf r (c :: s).
Proof. intros [u ->]. exists (c :: u); reflexivity. Qed.
Lemma suf_trans a b c : suf a b -> suf b c -> suf a c.
Proof. intros [u ->] [v ->]. exists (v ++ u). now rewrite <- app_assoc. Qed.
Lemma suf_nil s : suf [] s. Proof. exists s; now rewrite app_nil_r. Qed.
Lemma suf_len a b : suf a b -> (length a <= length b)%nat.
Proof. intros [u ->]. rewrite app_length. lia. Qed.
Lemma suf_tl s : suf (tl s) s. Proof. destruct s; [apply suf_refl|]. apply suf_cons, suf_refl. Qed.
Global Hint Resolve suf_refl suf_cons suf_nil suf_tl : suf.

Lemma between_app u r : between (u ++ r) r = u.
Proof. unfold between. rewrite app_length. replace (length u + length r - length r)%nat with (length u) by lia.
  rewrite firstn_app, Nat.sub_diag. cbn. now rewrite app_nil_r, firstn_all. Qed.
Lemma between_suf s r : suf r s -> s = between s r ++ r.
Proof. intros [u ->]. now rewrite between_app. Qed.
Lemma between_len s r : suf r s -> (length (between s r) = length s - length r)%nat.
Proof. intros [u ->]. rewrite between_app, app_length. lia. Qed.

Lemma white_iff c : isWhite c = true <-> white c.
Proof. unfold isWhite, white. lia. Qed.

Lemma skipDigits_suf r s : suf (skipDigits r s) s.
Proof. induction s as [|c s IH]; cbn; [auto with suf|]. destruct (_ <? _); auto with suf. Qed.
Lemma eat_suf c s : suf (eat c s) s.
Proof. destruct s as [|d s]; cbn; auto with suf. destruct (_ =? _); auto with suf. Qed.
Global Hint Resolve skipDigits_suf eat_suf : suf.
Lemma skipTail_suf a s : suf (skipTail a s) s.
Proof.
  unfold skipTail. set (s3 := if peekIs 46 s then _ else _).
  assert (H3 : suf s3 s).
  { unfold s3. destruct (peekIs 46 s); [|apply suf_refl]. eapply suf_trans; [apply skipDigits_suf|apply suf_tl]. }
  cbv zeta. destruct (_ && _); [|exact H3]. eapply suf_trans; [apply skipDigits_suf|]. eapply suf_trans; [|exact H3].
  eapply suf_trans; [|apply suf_tl]. destruct (peekIs 43 (tl s3)); [apply suf_tl|apply eat_suf].
Qed.
Lemma skipDouble_suf s : suf (skipDouble s) s.
Proof.
  unfold skipDouble. cbv zeta. eapply suf_trans; [apply skipTail_suf|].
  eapply suf_trans; [apply skipDigits_suf|apply eat_suf].
Qed.
Lemma skipSuffix_suf s : suf (skipSuffix s) s.
Proof.
  unfold skipSuffix. destruct (peekIs 102 s); [apply suf_tl|]. cbv zeta.
  eapply suf_trans; [|apply (eat_suf 85)]. destruct (peekIs 76 _); [|apply suf_refl].
  eapply suf_trans; [apply eat_suf|apply suf_tl].
Qed.
Lemma skipDigits_dig r c s : digitValue c <? r = true -> skipDigits r (c :: s) = skipDigits r s.
Proof. intros H. cbn. now rewrite H. Qed.
Lemma digitValue_dec c : digit c -> digitValue c = c - 48.
Proof. unfold digit, digitValue. intros H. destruct (48 <=? c) eqn:E1, (c <=? 57) eqn:E2; cbn; lia. Qed.
Lemma readNumeric_suf c s : digit c -> suf (readNumericLiteral (c :: s)) s.
Proof.
  intros Hc. unfold readNumericLiteral. cbn [peekIs tl]. destruct (c =? 48) eqn:E.
  - destruct (peekIs 120 s).
    + eapply suf_trans; [apply skipSuffix_suf|]. eapply suf_trans; [apply skipDigits_suf|apply suf_tl].
    + eapply suf_trans; [apply skipSuffix_suf|apply skipDouble_suf].
  - eapply suf_trans; [apply skipSuffix_suf|].
    unfold skipDouble, eat. unfold digit in Hc. replace (c =? 45) with false by lia. cbv zeta.
    rewrite (skipDigits_dig 10 c s) by (rewrite digitValue_dec by exact Hc; lia).
    eapply suf_trans; [apply skipTail_suf|apply skipDigits_suf].
Qed.

Lemma skipLine_suf s : suf (skipLine s) s.
Proof. unfold skipLine. destruct (special_loop s [10] 0) as [b r] eqn:E. exact (special_loop_suffix _ _ _ _ _ E). Qed.
Lemma skipComment_suf s b r : skipComment s = (b, r) -> suf r s.
Proof. intros E. exact (special_loop_suffix _ _ _ _ _ E). Qed.
Lemma directiveWhite_suf s b r : directiveWhite s = (b, r) -> suf r s.
Proof.
  revert b r. induction s as [|c s IH]; cbn; intros b r E; [injection E as <- <-; auto with suf|].
  destruct (isWhite c); cbn in E; [|injection E as <- <-; auto with suf].
  destruct (c =? 10); [injection E as <- <-; auto with suf|]. apply suf_cons. eauto.
Qed.
Lemma skipDefine_suf b s : suf (skipDefine b s) s.
Proof. revert b. induction s as [|c s IH]; intros b; cbn; [auto with suf|].
  destruct (c =? 10); [destruct b|]; auto with suf. Qed.
Lemma id_loop_suf s w f r w' : id_loop s w f = (r, w') -> suf r s.
Proof. revert w f. induction s as [|c s IH]; intros w f; cbn; intros E; [injection E as <- <-; auto with suf|].
  destruct (mask_match _ _); [apply suf_cons; eauto|injection E as <- <-; auto with suf]. Qed.
Lemma parse_identifier_suf s fl : suf (snd (parse_identifier s fl)) s.
Proof. unfold parse_identifier. destruct (id_loop _ _ _) as [r w] eqn:E. cbn. exact (id_loop_suf _ _ _ _ _ E). Qed.
Lemma readDirective_suf c s rest b e : readDirective (c :: s) = (rest, b, e) -> suf rest s.
Proof.
  unfold readDirective. cbn [tl]. destruct (directiveWhite s) as [null s1] eqn:E1. apply directiveWhite_suf in E1.
  destruct null; [injection 1 as <- <- <-; exact E1|].
  set (s2 := snd (parse_identifier s1 WithDollarSign)). cbv zeta.
  assert (H2 : suf s2 s) by (eapply suf_trans; [apply parse_identifier_suf|exact E1]).
  assert (HL : suf (skipLine s2) s) by (eapply suf_trans; [apply skipLine_suf|exact H2]).
  destruct (between s1 s2); [intros X; injection X as <- _ _; exact HL|].
  destruct (existsb _ _); [intros X; injection X as <- _ _; exact HL|].
  destruct (bytesEqb _ _); intros X; injection X as <- _ _; [|exact HL].
  eapply suf_trans; [apply skipDefine_suf|exact H2].
Qed.
Lemma readString_suf q : forall n s r, (length s <= n)%nat -> readString q s = Some r -> suf r s.
Proof.
  induction n as [|n IH]; intros [|c s] r Hn; cbn; try discriminate; [cbn in Hn; lia|]. cbn in Hn.
  destruct (c =? 92).
  - destruct s as [|d s]; [discriminate|]. cbn in Hn. intros E. apply suf_cons, suf_cons, (IH s r); [lia|exact E].
  - destruct (c =? q); [intros E; injection E as <-; auto with suf|]. intros E. apply suf_cons, (IH s r); [lia|exact E].
Qed.
Lemma rawDelimiter_suf s : match rawDelimiter s with RawOk r => suf r s /\ peekIs 40 r = true | RawErr _ r => suf r s end.
Proof.
  induction s as [|c s IH]; cbn; [auto with suf|].
  destruct (c =? 40) eqn:E; [split; [auto with suf|exact E]|].
  destruct (_ || _); [auto with suf|]. destruct (rawDelimiter s); [destruct IH; split|]; auto with suf.
Qed.
Lemma rawContents_suf w l s : forall a, match rawContents w l a s with RawOk r => suf r s | RawErr _ r => suf r s end.
Proof.
  induction s as [|c s IH]; cbn; intros a; [auto with suf|].
  assert (H : forall a, match rawContents w l a s with RawOk r => suf r (c :: s) | RawErr _ r => suf r (c :: s) end)
    by (intros a'; specialize (IH a'); destruct (rawContents w l a' s); auto with suf).
  destruct a as [i|]; [|apply H]. destruct (_ && _); [auto with suf|]. destruct (_ =? _); apply H.
Qed.
Lemma readRaw_suf s : match readRaw s with RawOk r => suf r s | RawErr _ r => suf r s end.
Proof.
  unfold readRaw. pose proof (rawDelimiter_suf s) as D. destruct (rawDelimiter s) as [s1|e s1]; [|exact D].
  destruct D as [D _].
  pose proof (rawContents_suf s (length s - length s1) (tl s1) None) as C.
  destruct (rawContents _ _ _ _); (eapply suf_trans; [exact C|]; eapply suf_trans; [apply suf_tl|exact D]).
Qed.

Lemma identLoop_suf : forall f first n errs s,
  match identLoop f first n errs s with
  | Tok _ rest _ _ => suf rest s /\ (n = O -> (length rest < length s)%nat)
  | Skip rest _ e => suf rest s /\ (n = O -> (length rest < length s)%nat) /\ e <> []
  | Crash => True
  end.
Proof.
  induction f as [|f IH]; intros first n errs s; [exact I|]. cbn [identLoop].
  destruct s as [|c r]; [destruct n; [exact I|split; [auto with suf|discriminate]]|].
  assert (STEP : forall n' errs' r', suf r' r ->
    match identLoop f first n' errs' r' with
    | Tok _ rest _ _ => suf rest (c :: r) /\ (n = O -> (length rest < length (c :: r))%nat)
    | Skip rest _ e => suf rest (c :: r) /\ (n = O -> (length rest < length (c :: r))%nat) /\ e <> []
    | Crash => True end).
  { intros n' errs' r' Hr. specialize (IH first n' errs' r').
    destruct (identLoop f first n' errs' r') as [t rest b e|rest b e|]; [| |exact I].
    - destruct IH as [IH _]. pose proof (suf_len _ _ (suf_trans _ _ _ IH Hr)). split; [apply suf_cons; eapply suf_trans; eauto|cbn; lia].
    - destruct IH as (IH & _ & He). pose proof (suf_len _ _ (suf_trans _ _ _ IH Hr)).
      split; [apply suf_cons; eapply suf_trans; eauto|]. split; [cbn; lia|exact He]. }
  destruct (mask_match c identMask); [apply STEP, suf_refl|].
  destruct (c =? 34).
  - destruct (_ && _).
    + pose proof (readRaw_suf r) as R. destruct (readRaw r) as [rest|e rest].
      * split; [auto with suf|]. apply suf_len in R. cbn; lia.
      * destruct rest as [|x rest']; [exact I|]. apply STEP. eapply suf_trans; [|exact R]. apply suf_cons, suf_refl.
    + destruct (readString 34 r) as [rest|] eqn:E.
      * apply (readString_suf 34 _ r rest (le_n _)) in E. split; [auto with suf|]. apply suf_len in E. cbn; lia.
      * split; [auto with suf|]. split; [cbn; lia|]. destruct errs; discriminate.
  - destruct n.
    + split; [auto with suf|]. split; [cbn; lia|]. destruct errs; discriminate.
    + split; [auto with suf|discriminate].
Qed.

Lemma identLoop_type : forall f first n errs s t rest b e,
  identLoop f first n errs s = Tok t rest b e -> t <> EndOfFile.
Proof.
  induction f as [|f IH]; intros first n errs s t rest b e; [discriminate|]. cbn [identLoop].
  destruct s as [|x s]; [destruct n; congruence|]. destruct (mask_match x identMask); [apply IH|].
  destruct (x =? 34); [|destruct n; congruence]. destruct (_ && _); [|destruct (readString 34 s); congruence].
  destruct (readRaw s) as [?|? [|? ?]]; [congruence|congruence|]. apply IH.
Qed.
Lemma identLoop_nocrash : forall f first n errs s, (2 <= n)%nat -> (length s < f)%nat ->
  identLoop f first n errs s <> Crash.
Proof.
  induction f as [|f IH]; intros first n errs s Hn Hf; [lia|]. cbn [identLoop].
  destruct s as [|c r]; [destruct n; [lia|discriminate]|]. cbn in Hf.
  destruct (mask_match c identMask); [apply IH; lia|].
  destruct (c =? 34).
  - replace (n =? 1)%nat with false by lia. cbn [andb]. destruct (readString 34 r); discriminate.
  - destruct n; [lia|discriminate].
Qed.
Lemma identLoop_crash c r : identLoop (S (length (c :: r))) c 0 [] (c :: r) = Crash ->
  exists r', c :: r = 82 :: 34 :: r'.
Proof.
  change (identLoop (S (length (c :: r))) c 0 [] (c :: r)) with
    (if mask_match c identMask then identLoop (length (c :: r)) c 1 [] r
     else if c =? 34 then
       match readString 34 r with
       | Some rest => Tok StringLiteral rest false []
       | None => Skip [] false ([] ++ [(EOFInStringLiteral, [])])
       end
     else Skip r false ([] ++ [(GarbageCharacters, c :: r)])).
  destruct (mask_match c identMask).
  2:{ destruct (c =? 34); [destruct (readString 34 r)|]; discriminate. }
  cbn [length identLoop]. destruct r as [|d r]; [discriminate|].
  destruct (mask_match d identMask).
  { intros E. exfalso. apply identLoop_nocrash in E; [exact E|lia|cbn; lia]. }
  destruct (d =? 34) eqn:Ed; [|discriminate]. apply Z.eqb_eq in Ed. subst d.
  cbn [Nat.eqb andb]. destruct (c =? 82) eqn:Ec; [|destruct (readString 34 r); discriminate].
  apply Z.eqb_eq in Ec. subst c. intros _. exists r. reflexivity.
Qed.

Lemma skipWhite_spec s : forall b rest b', skipWhite b s = (rest, b') ->
  exists u, s = u ++ rest /\ allWhite u /\ b' = bolAfterGap b u /\ (forall c r, rest = c :: r -> ~ white c).
Proof.
  induction s as [|c s IH]; cbn; intros b rest b' E.
  - injection E as <- <-. exists []. repeat split; [constructor| |discriminate]. unfold bolAfterGap. cbn. now rewrite orb_false_r.
  - destruct (isWhite c) eqn:W.
    + destruct (IH _ _ _ E) as (u & -> & Hu & -> & Hr). exists (c :: u). repeat split; [constructor; [now apply white_iff|exact Hu]| |exact Hr].
      unfold bolAfterGap. cbn [existsb]. rewrite (Z.eqb_sym 10 c). destruct (c =? 10), b; reflexivity.
    + injection E as <- <-. exists []. repeat split; [constructor|unfold bolAfterGap; cbn; now rewrite orb_false_r|].
      intros c' r' X. injection X as <- <-. rewrite <- white_iff. congruence.
Qed.

Lemma oper_suf one twos r : exists t rest, oper one twos r = Tok t rest false [] /\ suf rest r.
Proof.
  unfold oper. destruct r as [|d r]; [exists one, []; auto with suf|].
  destruct (find _ _) as [[x t]|]; [exists t, r|exists one, (d :: r)]; auto with suf.
Qed.

(** One round takes bytes from the front; what it skips without an error is white; it fails only at a
    raw string. *)
Definition roundOk (s : list Z) (x : round) : Prop :=
  match x with
  | Tok _ rest _ _ => exists u, s = u ++ rest /\ u <> []
  | Skip rest _ e => exists u, s = u ++ rest /\ u <> [] /\ (e = [] -> allWhite u)
  | Crash => exists r', s = 82 :: 34 :: r'
  end.
Lemma suf_lt rest s : suf rest s -> (length rest < length s)%nat -> exists u, s = u ++ rest /\ u <> [].
Proof. intros [u ->] H. exists u. split; [reflexivity|]. intros ->. cbn in H. lia. Qed.
Lemma ok_tok t rest b e c r : suf rest r -> roundOk (c :: r) (Tok t rest b e).
Proof. intros [u ->]. exists (c :: u). split; [reflexivity|discriminate]. Qed.
Lemma ok_oper one twos c r : roundOk (c :: r) (oper one twos r).
Proof. destruct (oper_suf one twos r) as (t & rest & -> & H). now apply ok_tok. Qed.
Lemma lexRound_ok bol ang c r : roundOk (c :: r) (lexRound bol ang c r).
Proof.
  unfold lexRound. cbv zeta.
  destruct (isWhite c) eqn:W.
  { destruct (skipWhite bol (c :: r)) as [rest b] eqn:E. destruct (skipWhite_spec _ _ _ _ E) as (u & Hu & Wu & _ & Hr).
    exists u. split; [exact Hu|]. split; [|auto]. intros ->. cbn in Hu. apply white_iff in W. exact (Hr c r (eq_sym Hu) W). }
  destruct (c =? 35).
  { destruct bol; [|exists [c]; split; [reflexivity|split; [discriminate|discriminate]]].
    destruct (readDirective (c :: r)) as [[rest b] e] eqn:E. apply ok_tok. exact (readDirective_suf _ _ _ _ _ E). }
  destruct (c =? 47).
  { destruct r as [|d r']; [apply ok_tok, suf_refl|].
    destruct (d =? 47); [apply ok_tok, suf_cons, skipLine_suf|].
    destruct (d =? 42).
    - destruct (skipComment r') as [found rest] eqn:E. apply skipComment_suf in E.
      destruct found; [apply ok_tok, suf_cons, E|]. destruct E as [u ->]. exists (c :: d :: u).
      split; [reflexivity|]. split; discriminate.
    - destruct (d =? 61); [apply ok_tok, suf_cons, suf_refl|apply ok_tok, suf_refl]. }
  repeat (match goal with |- roundOk _ (if (_ =? _) then _ else _) => destruct (_ =? _) end;
          [solve [apply ok_tok, suf_refl|apply ok_oper|destruct ang; [apply ok_tok, suf_refl|apply ok_oper]|
                  destruct r as [|d [|e r']]; [apply ok_tok, suf_refl|apply ok_tok, suf_refl|];
                  destruct (_ && _); [apply ok_tok, suf_cons, suf_cons, suf_refl|apply ok_tok, suf_refl]]|]).
  destruct (_ || _).
  { destruct (readString c r) as [rest|] eqn:E; [apply ok_tok, (readString_suf c _ r rest (le_n _)), E|].
    exists (c :: r). split; [now rewrite app_nil_r|]. split; discriminate. }
  unfold readIdentifierOrLiteral. destruct (_ && _) eqn:D.
  { apply ok_tok. apply readNumeric_suf. unfold digit. lia. }
  pose proof (identLoop_suf (S (length (c :: r))) c 0 [] (c :: r)) as H.
  pose proof (identLoop_crash c r) as K.
  destruct (identLoop _ _ _ _ _) as [t rest b e|rest b e|].
  - destruct H as [H H2]. now apply suf_lt; auto.
  - destruct H as (H & H2 & He). destruct (suf_lt _ _ H (H2 eq_refl)) as (u & E & U). exists u. split; [exact E|]. split; [exact U|]. contradiction.
  - exact (K eq_refl).
Qed.

Lemma lexRound_type bol ang c r t0 rest0 b e : lexRound bol ang c r = Tok t0 rest0 b e -> t0 <> EndOfFile.
Proof.
  unfold lexRound. cbv zeta.
  assert (O : forall one twos r, one <> EndOfFile -> Forall (fun p => snd p <> EndOfFile) twos ->
     forall t0 rest0 b e, oper one twos r = Tok t0 rest0 b e -> t0 <> EndOfFile).
  { intros one twos r0 H1 H2 t1 rest1 b1 e1. unfold oper. destruct r0; [congruence|]. destruct (find _ twos) as [[x y]|] eqn:F; [|congruence].
    apply find_some in F as [F _]. rewrite Forall_forall in H2. apply H2 in F. cbn in F. congruence. }
  destruct (isWhite c); [destruct (skipWhite _ _); congruence|].
  destruct (c =? 35); [destruct bol; [destruct (readDirective _) as [[? ?] ?]; congruence|congruence]|].
  destruct (c =? 47).
  { destruct r as [|d r']; [congruence|]. destruct (d =? 47); [congruence|]. destruct (d =? 42); [|destruct (d =? 61); congruence].
    destruct (skipComment r') as [[|] ?]; congruence. }
  repeat (match goal with |- (if (_ =? _) then _ else _) = _ -> _ => destruct (_ =? _) end;
    [solve [congruence|apply O; [discriminate|repeat constructor; discriminate]|
            destruct ang; [congruence|apply O; [discriminate|repeat constructor; discriminate]]|
            destruct r as [|? [|? ?]]; try congruence; destruct (_ && _); congruence]|]).
  destruct (_ || _); [destruct (readString c r); congruence|].
  unfold readIdentifierOrLiteral. destruct (_ && _); [congruence|].
  apply identLoop_type.
Qed.

(** ** Covering, without macros *)
Definition plainState (p : pp) (done rest : list Z) : Prop :=
  ppMacros p = [] /\ ((exists ci d, ppStack p = [mkItem ci d rest]) \/ (ppStack p = [] /\ rest = [])) /\
  (ppStack p <> [] -> ppEnd p = zlen done + zlen rest).

Lemma zlen_app' (a b : list Z) : zlen (a ++ b) = zlen a + zlen b.
Proof. unfold zlen. rewrite app_length. lia. Qed.

Lemma addErrs_nil e es l : addErrs e es l = [] -> es = [] /\ l = [].
Proof. unfold addErrs. intros H. apply app_eq_nil in H as [-> H]. split; [|reflexivity]. now apply map_eq_nil in H. Qed.

Lemma readTokenF_plain : forall f ang last p done rest t q, plainState p done rest ->
  readTokenF f ang last p = Got t q ->
  exists g rest', (ppErrors q = [] -> ppErrors p = [] /\ allWhite g) /\
    ((tokType t = EndOfFile /\ rest = g) \/
     (tokType t <> EndOfFile /\ tokText t <> [] /\ tokLoc t = zlen done + zlen g /\
      rest = g ++ tokText t ++ rest' /\ plainState q (done ++ g ++ tokText t) rest')).
Proof.
  induction f as [|f IH]; intros ang last p done rest t q (HM & HS & HE); [discriminate|]. cbn [readTokenF].
  destruct HS as [(ci & d & HS)|[HS ->]]; rewrite HS.
  2:{ injection 1 as <- <-. exists [], []. split; [intros E; split; [exact E|constructor]|]. left; split; reflexivity. }
  specialize (HE ltac:(rewrite HS; discriminate)). cbn [itRest].
  destruct rest as [|c r].
  - intros E. apply (IH _ _ _ done []) in E.
    2:{ split; [exact HM|]. split; [right; split; reflexivity|]. cbn. congruence. }
    cbn [ppErrors] in E. exact E.
  - cbv zeta. pose proof (lexRound_ok (ppBol p) ang c r) as R.
    destruct (lexRound (ppBol p) ang c r) as [t0 rest0 b e|rest0 b e|] eqn:L; [| |discriminate].
    + destruct R as (u & Eu & Nu). rewrite Eu. rewrite between_app.
      assert (P : forall args errs, Got (mkToken (linearLoc (ppEnd p) (u ++ rest0)) t0 u)
          (mkPP [advance (mkItem ci d (u ++ rest0)) rest0] (ppEnd p) b (ppMacros p) (ppChains p) (ppMap p)
             (addErrs (ppEnd p) e errs) args) = Got t q -> errs = ppErrors p ->
          t0 <> EndOfFile -> 
          exists g rest', (ppErrors q = [] -> ppErrors p = [] /\ allWhite g) /\
            ((tokType t = EndOfFile /\ u ++ rest0 = g) \/
             (tokType t <> EndOfFile /\ tokText t <> [] /\ tokLoc t = zlen done + zlen g /\
              u ++ rest0 = g ++ tokText t ++ rest' /\ plainState q (done ++ g ++ tokText t) rest'))).
      { intros args errs E -> NE. injection E as <- <-. exists [], rest0. cbn [ppErrors tokType tokText tokLoc]. split.
        - intros X. apply addErrs_nil in X as [_ X]. split; [exact X|constructor].
        - right. split; [exact NE|]. split; [exact Nu|]. split.
          + unfold linearLoc. rewrite HE, Eu. cbn. lia.
          + split; [reflexivity|]. split; [exact HM|]. split.
            * left. unfold advance. cbn [itChain itDone itRest]. exists ci. eexists. reflexivity.
            * intros _. cbn [ppEnd]. rewrite HE, Eu. cbn [app]. rewrite !zlen_app'. lia. }
      assert (NE : t0 <> EndOfFile) by exact (lexRound_type _ _ _ _ _ _ _ _ L).
      destruct t0; try (intros E; exact (P _ _ E eq_refl NE)).
      rewrite HM. cbn [findMacro]. rewrite <- HM. intros E. exact (P _ _ E eq_refl NE).
    + destruct R as (u & Eu & Nu & Wu). intros E.
      apply (IH _ _ _ (done ++ u) rest0) in E.
      2:{ split; [exact HM|]. split; [left; unfold advance; cbn [itChain]; exists ci; eexists; reflexivity|].
          intros _. cbn [ppEnd]. rewrite HE, Eu, !zlen_app'. lia. }
      destruct E as (g & rest' & Eg & Ht). exists (u ++ g), rest'. split.
      * intros X. apply Eg in X as [X Wg]. cbn [ppErrors] in X. apply addErrs_nil in X as [Ee X].
        split; [exact X|]. apply Forall_app. split; [now apply Wu|exact Wg].
      * destruct Ht as [[T Er]|(T & Nt & Lt & Er & Pq)]; [left; split; [exact T|congruence]|].
        right. split; [exact T|]. split; [exact Nt|]. split; [rewrite Lt, !zlen_app'; lia|].
        split; [rewrite Eu, Er, <- app_assoc; reflexivity|]. rewrite <- app_assoc in Pq. now rewrite <- app_assoc.
Qed.

Lemma readAll_plain : forall f ang p done rest ts q, plainState p done rest ->
  readAll f ang p = Some (ts, q) ->
  (ppErrors q = [] -> ppErrors p = []) /\
  exists ts' e, ts = ts' ++ [e] /\ tokType e = EndOfFile /\ Forall (fun t => tokType t <> EndOfFile) ts' /\
    laid (fun g => ppErrors q = [] -> allWhite g) (zlen done) rest ts'.
Proof.
  induction f as [|f IH]; intros ang p done rest ts q HP; [discriminate|]. cbn [readAll]. unfold readToken.
  destruct (readTokenF _ _ _ p) as [t p'| |] eqn:E; try discriminate.
  destruct (readTokenF_plain _ _ _ _ _ _ _ _ HP E) as (g & rest' & Eg & Ht).
  destruct Ht as [[T Er]|(T & Nt & Lt & Er & Pq)].
  - rewrite T. intros X. injection X as <- <-. split; [intros Y; apply Eg in Y as [Y _]; exact Y|].
    exists [], t. repeat split; [exact T|constructor|]. subst rest. apply laid_end. intros Y. now apply Eg in Y as [_ Y].
  - assert (M : forall X : option (list token * pp), match tokType t with EndOfFile => Some ([t], p') | _ => X end = X)
      by (intros X; destruct (tokType t); congruence).
    rewrite M. destruct (readAll f (tl ang) p') as [[ts0 q0]|] eqn:E2; [|discriminate].
    intros X. injection X as <- <-. destruct (IH _ _ _ _ _ _ Pq E2) as (Hq & ts' & e & -> & Te & Fe & HL).
    split; [intros Y; apply Hq in Y; now apply Eg in Y as [Y _]|].
    exists (t :: ts'), e. repeat split; [exact Te|constructor; assumption|].
    subst rest. apply laid_tok; [intros Y; apply Hq in Y; now apply Eg in Y as [_ Y]|exact Nt|exact Lt|].
    rewrite !zlen_app' in HL. now replace (zlen done + zlen g + zlen (tokText t)) with (zlen done + (zlen g + zlen (tokText t))) by lia.
Qed.
Theorem covered macros_nil_file f ang ts q : readAll f ang (start [] macros_nil_file) = Some (ts, q) ->
  exists ts' e, ts = ts' ++ [e] /\ tokType e = EndOfFile /\ Forall (fun t => tokType t <> EndOfFile) ts' /\
    laid (fun g => ppErrors q = [] -> allWhite g) 0 macros_nil_file ts'.
Proof.
  intros E. refine (proj2 (readAll_plain f ang _ [] macros_nil_file ts q _ E)).
  split; [reflexivity|]. split; [left; exists O, []; reflexivity|]. intros _. reflexivity.
Qed.
