(* Property C77: the tokens of a C++ source. *)
From Coq Require Import Lia ZifyBool ZifyNat.
From Coq Require Import String.
From Verif Require Import Txt CppTokModel CppTokSpec CppTokProofs CppTokLoc CppTokRead.
Local Open Scope string_scope.
Local Open Scope list_scope.
Local Open Scope Z_scope.
Local Notation length := List.length.

(** Every byte of the source is in a token, which stands where its location says, or between tokens; between
    tokens there is only white space unless an error has been reported. Missing: sources in which macros are
    expanded (their locations are in C77_locations_partial). *)
Theorem C77_every_byte_partial file n angles ts q : readAll n angles (start [] file) = Some (ts, q) ->
  exists ts' e, ts = ts' ++ [e] /\ tokType e = EndOfFile /\ Forall (fun t => tokType t <> EndOfFile) ts' /\
    laid (fun g => ppErrors q = [] -> allWhite g) 0 file ts'.
Proof. exact (covered file n angles ts q). Qed.
Print Assumptions C77_every_byte_partial.
Example C77_every_byte_ex : exists ts q,
  readAll 20 [] (start [] (txt "x <<= 0x1FULL; `y' // end")) = Some (ts, q) /\
  map (fun t => (tokType t, tokLoc t)) ts =
    [(Identifier, 0); (LeftShift, 2); (SingleEqual, 4); (NumericLiteral, 6); (Semicolon, 13); (Identifier, 16); (EndOfFile, 17)] /\
  ppErrors q = [(GarbageCharacters, 15); (EOFInStringLiteral, 25)].
Proof. eexists _, _. split; [vm_compute; reflexivity|]. split; reflexivity. Qed.

(** Reading a source ends, with EndOfFile and without a failing assertion, if no macro's name is in the
    expansion of a macro and there are no raw strings. Missing: raw strings that are ended. *)
Theorem C77_reading_ends_partial ms file angles :
  (forall m m', In m ms -> In m' ms -> mName m' <> [] /\ ~ occurs (mName m') (mText m)) ->
  (forall m, In m ms -> ~ occurs (txt "R""") (mText m)) -> ~ occurs (txt "R""") file ->
  exists n ts q, readAll n angles (start ms file) = Some (ts, q).
Proof. exact (reading_ends ms file angles). Qed.
Print Assumptions C77_reading_ends_partial.
Definition exMacros : list macro :=
  [mkMacro (txt "PLY_INLINE") [] false; mkMacro (txt "PLY_ASSERT") [] true; mkMacro (txt "PLY_TEST_CASE") (txt "void foo()") true].
Lemma occurs_dec pat s : (forall k, (k <= length s)%nat -> firstn (length pat) (skipn k s) <> pat) -> ~ occurs pat s.
Proof.
  intros H (a & b & ->). apply (H (length a)); [rewrite app_length; lia|].
  rewrite skipn_app, skipn_all, Nat.sub_diag. cbn [skipn app]. rewrite firstn_app, Nat.sub_diag, firstn_all. apply app_nil_r.
Qed.
Lemma occurs_check pat s :
  forallb (fun k => negb (bytesEqb (firstn (length pat) (skipn k s)) pat)) (seq 0 (S (length s))) = true -> ~ occurs pat s.
Proof.
  intros H. apply occurs_dec. intros k Hk. rewrite forallb_forall in H.
  specialize (H k ltac:(apply in_seq; lia)). unfold bytesEqb in H. destruct (list_eq_dec _ _ _); [discriminate|assumption].
Qed.
Example C77_reading_ends_ex :
  (forall m m', In m exMacros -> In m' exMacros -> mName m' <> [] /\ ~ occurs (mName m') (mText m)) /\
  (forall m, In m exMacros -> ~ occurs (txt "R""") (mText m)) /\
  ~ occurs (txt "R""") (txt "PLY_INLINE int f(int x) { PLY_ASSERT(x > (0)); return x; } PLY_TEST_CASE(""t"") {}").
Proof.
  repeat apply conj.
  - intros m m' Hm Hm'. cbn in Hm, Hm'. destruct Hm as [<-|[<-|[<-|[]]]], Hm' as [<-|[<-|[<-|[]]]]; (split; [discriminate|apply occurs_check; vm_compute; reflexivity]).
  - intros m Hm. cbn in Hm. destruct Hm as [<-|[<-|[<-|[]]]]; apply occurs_check; vm_compute; reflexivity.
  - apply occurs_check. vm_compute. reflexivity.
Qed.

(** A source written as a sequence of tokens is read as this sequence of tokens and nothing is reported.
    Missing: the forms excluded in [written], with which it does not hold (see below). *)
Theorem C77_written_read_back_partial ms angles src ts : source true angles src ts ->
  (forall name m, In (Identifier, name) ts -> In m ms -> mName m <> name) ->
  exists n toks e q, readAll n angles (start ms src) = Some (toks ++ [e], q) /\ tokType e = EndOfFile /\
    map (fun t => (tokType t, tokText t)) toks = ts /\ ppErrors q = [].
Proof. exact (written_read_back ms angles src ts). Qed.
Print Assumptions C77_written_read_back_partial.

Ltac tok g t text :=
  match goal with |- source ?b ?a ?s (_ :: ?ts) =>
    let g' := eval vm_compute in g in
    let x' := eval vm_compute in text in
    let rest := eval vm_compute in (skipn (length (g ++ text)) s) in
    refine (src_tok b a g' t x' rest ts _ _ _ _ _);
      [repeat (constructor; [unfold white; lia|]); constructor
      | |cbn [separated hd tl]|first [discriminate|reflexivity]|cbn [bolAfterToken tl]] end.
Ltac bytes := repeat (constructor; [unfold identByte, identStart, digit, hexDigit; lia|]); constructor.
Ltac sep :=
  first [exact Logic.I
  | intros c X; injection X as <-; unfold identByte, identStart, digit; repeat split; first [lia|discriminate]
  | split; [intros t' p HI [r E]; repeat (destruct HI as [HI|HI]; [injection HI as <- <-; first [discriminate E|left; apply Nat.leb_le; reflexivity|right; split; [reflexivity|now (left + right)]]|]); destruct HI
           |split; [intros [r E]; discriminate E|split; [intros [r E]; discriminate E|first [discriminate|intros _; split; discriminate]]]]].
Definition exSource : list Z := Eval vm_compute in txt "#include <a>
a<b>> /* c */ ""\"""" R""x(q)y)x"" 0x1FU 1.5e-3f // end
 ...".
(** Here the two closing angles are asked for one by one. *)
Definition exTokens : list (ttype * list Z) := Eval vm_compute in
  [(Directive, txt "#include <a>
"); (Identifier, txt "a"); (OpenAngle, txt "<"); (Identifier, txt "b"); (CloseAngle, txt ">"); (CloseAngle, txt ">");
   (CStyleComment, txt "/* c */"); (StringLiteral, txt """\"""""); (StringLiteral, txt "R""x(q)y)x""");
   (NumericLiteral, txt "0x1FU"); (NumericLiteral, txt "1.5e-3f"); (LineComment, txt "// end
"); (Ellipsis, txt "...")].
Example C77_written_ex : source true [false; false; false; false; true; true] exSource exTokens.
Proof.
  unfold exSource, exTokens.
  tok (@nil Z) Directive (txt "#include <a>
"); [| sep|].
  { refine (w_directive [] (txt "include") (txt " <a>") _ _ _ _); [constructor|now left|repeat (constructor; [discriminate|]); constructor|].
    intros c X. injection X as <-. unfold identByte, identStart, digit. lia. }
  tok (@nil Z) Identifier (txt "a"); [apply w_ident; [unfold identStart; lia|bytes]|sep|].
  tok (@nil Z) OpenAngle (txt "<"); [exact (w_punct _ _ (nth_error_In punct 4 eq_refl))|sep|].
  tok (@nil Z) Identifier (txt "b"); [apply w_ident; [unfold identStart; lia|bytes]|sep|].
  tok (@nil Z) CloseAngle (txt ">"); [exact (w_punct _ _ (nth_error_In punct 5 eq_refl))|sep|].
  tok (@nil Z) CloseAngle (txt ">"); [exact (w_punct _ _ (nth_error_In punct 5 eq_refl))|sep|].
  tok [32] CStyleComment (txt "/* c */"); [|sep|].
  { refine (w_comment (txt " c ") _). repeat (apply cm_byte; [discriminate|]). apply cm_nil. }
  tok [32] StringLiteral (txt """\"""""); [|sep|].
  { refine (w_string 34 [92; 34] _ _); [now left|apply q_esc, q_nil]. }
  tok [32] StringLiteral (txt "R""x(q)y)x"""); [|sep|].
  { refine (w_raw [120] (txt "q)y") _ _); [constructor; [unfold white; lia|constructor]|].
    apply rt_byte; [discriminate|]. apply rt_paren; [discriminate|discriminate|apply rt_nil]. }
  tok [32] NumericLiteral (txt "0x1FU"); [|sep|].
  { refine (w_hex [49; 70] (txt "U") _ _ _ _); [bytes|discriminate|cbn; tauto|discriminate]. }
  tok [32] NumericLiteral (txt "1.5e-3f"); [|sep|].
  { refine (w_decimal 49 [] [46; 53] [101; 45; 51] (txt "f") _ _ _ _ _ _); [unfold digit; lia|constructor| | |cbn; tauto|discriminate].
    - right. exists [53]. split; [bytes|reflexivity].
    - right. exists 101, [45], [51]. split; [now left|]. split; [now right; right|]. split; [bytes|]. split; [discriminate|reflexivity]. }
  tok [32] LineComment (txt "// end
"); [|sep|].
  { refine (w_lineComment (txt " end") _). repeat (constructor; [discriminate|]). constructor. }
  tok [32] Ellipsis (txt "..."); [exact (w_punct _ _ (nth_error_In punct 34 eq_refl))|sep|].
  apply src_end. constructor.
Qed.

(** The location of every token that is not the name of an expanded macro leads to a file or expansion, and to
    the place in it where the token's text stands. Missing: the location map is taken to keep items with the
    same location in the order they were put in; see C20 for when the tree does. *)
Theorem C77_locations_partial ms file n angles ts q : readAll n angles (start ms file) = Some (ts, q) ->
  Forall (fun t => tokType t <> Macro /\ tokType t <> EndOfFile ->
    exists ci off ch, expandLoc (ppMap q) (tokLoc t) = Some (ci, off) /\
      nth_error (ppChains q) ci = Some ch /\ standsAt (chContents ch) off (tokText t)) ts.
Proof. exact (locations_lead_back ms file n angles ts q). Qed.
Print Assumptions C77_locations_partial.
Example C77_locations_ex : exists ts q,
  readAll 40 [] (start exMacros (txt "PLY_INLINE int f(){PLY_ASSERT(x,(y));a}PLY_TEST_CASE(b) c")) = Some (ts, q) /\
  map (fun t => (tokType t, expandLoc (ppMap q) (tokLoc t))) (filter (fun t => match tokType t with Identifier | Macro => true | _ => false end) ts) =
    [(Macro, Some (0%nat, 10)); (Identifier, Some (0%nat, 11)); (Identifier, Some (0%nat, 15)); (Macro, Some (0%nat, 36)); (Identifier, Some (0%nat, 37));
     (Macro, Some (3%nat, 0)); (Identifier, Some (3%nat, 0)); (Identifier, Some (3%nat, 5)); (Identifier, Some (0%nat, 56))].
Proof. eexists _, _. split; [vm_compute; reflexivity|]. vm_compute. reflexivity. Qed.

(** ** What does not hold *)
Lemma left_one p it c r : ppStack p = [it] -> itRest it = c :: r -> left p = S (S (length r)).
Proof. unfold left. intros -> E. cbn. rewrite E. cbn. lia. Qed.
Lemma skip_to_end ang p it c r b e : ppStack p = [it] -> itRest it = c :: r -> lexRound (ppBol p) ang c r = Skip [] b e ->
  exists t q, readToken ang p = Got t q /\ tokType t = EndOfFile /\ ppErrors q = addErrs (ppEnd p) e (ppErrors p).
Proof.
  intros HS HR HL. eexists _, _. unfold readToken. rewrite (left_one _ _ _ _ HS HR).
  set (n := length r). cbn [readTokenF]. rewrite HS, HR, HL. cbn [ppStack advance itRest]. split; [reflexivity|]. split; reflexivity.
Qed.
Lemma take_one ang p it c r t rest b e : ppStack p = [it] -> itRest it = c :: r -> lexRound (ppBol p) ang c r = Tok t rest b e ->
  t <> Identifier ->
  exists q, readToken ang p = Got (mkToken (linearLoc (ppEnd p) (c :: r)) t (between (c :: r) rest)) q /\
    ppStack q = [advance it rest] /\ ppBol q = b /\ ppErrors q = addErrs (ppEnd p) e (ppErrors p).
Proof.
  intros HS HR HL NI. unfold readToken. cbn [readTokenF]. rewrite HS, HR, HL.
  destruct t; try congruence; (eexists; split; [reflexivity|]; repeat split; reflexivity).
Qed.
(** A raw string that is not ended stops the program. *)
Lemma raw_skip w len s rest : ~ In 41 s -> rawContents w len None (s ++ rest) = rawContents w len None rest.
Proof.
  induction s as [|c s IH]; intros H; [reflexivity|]. cbn [app rawContents].
  destruct (Z.eqb_spec c 41) as [->|_]; [exfalso; apply H; now left|]. apply IH. intros X. apply H. now right.
Qed.
Lemma raw_fails body ms ang : readRaw body = RawErr EOFInStringLiteral [] ->
  readToken ang (start ms (82 :: 34 :: body)) = Fails.
Proof.
  intros H. unfold readToken. cbn [readTokenF start ppStack itRest ppBol].
  rewrite lexRound_default, ident_loop_start by (unfold identByte, identStart; lia).
  assert (E : identLoop (S (length (82 :: 34 :: body))) 82 0 [] (82 :: 34 :: body) = Crash); [|now rewrite E].
  cbn [length identLoop]. change (mask_match 82 identMask) with true. change (mask_match 34 identMask) with false.
  change (34 =? 34) with true. change ((1 =? 1)%nat && (82 =? 82)) with true. cbv iota. now rewrite H.
Qed.
Theorem C77_raw_unterminated_refuted d s ms ang : rawDelim d -> ~ In 41 s ->
  readToken ang (start ms (txt "R""" ++ d ++ 40 :: s)) = Fails.
Proof.
  intros Hd Hs. apply raw_fails. unfold readRaw. rewrite rawDelimiter_run by exact Hd. cbn [tl].
  rewrite <- (app_nil_r s). now rewrite raw_skip.
Qed.
Print Assumptions C77_raw_unterminated_refuted.
(** A raw string whose contents end with a closing parenthesis is taken to be unterminated. *)
Theorem C77_raw_parenthesis_refuted s ms ang : ~ In 41 s ->
  readToken ang (start ms (txt "R""(" ++ s ++ txt "))""")) = Fails.
Proof.
  intros Hs. apply (raw_fails (40 :: s ++ [41; 41; 34])). unfold readRaw.
  change (rawDelimiter (40 :: s ++ [41; 41; 34])) with (RawOk (40 :: s ++ [41; 41; 34])). cbn [tl].
  rewrite raw_skip by exact Hs. cbn [length]. rewrite Nat.sub_diag. reflexivity.
Qed.
Print Assumptions C77_raw_parenthesis_refuted.
Example C77_raw_parenthesis_ex : readToken false (start [] (txt "R""(f(x))""")) = Fails.
Proof. vm_compute. reflexivity. Qed.

(** A comment that ends with two stars and a slash runs on, to the end of the file if no other comment follows. *)
Theorem C77_comment_stars_refuted s rest ms : commentText s -> ~ In 42 rest ->
  exists e q, readAll 1 [] (start ms (txt "/*" ++ s ++ txt "**/" ++ rest)) = Some ([e], q) /\ tokType e = EndOfFile /\
    map fst (ppErrors q) = [EOFInComment].
Proof.
  intros Hs Hr.
  assert (R : forall r, ~ In 42 r -> special_loop r [42; 47] 0 = (false, [])).
  { induction r as [|c r IH]; intros H; [reflexivity|]. cbn [special_loop nth].
    destruct (Z.eqb_spec c 42) as [->|_]; [exfalso; apply H; now left|]. apply IH. intros X; apply H; now right. }
  assert (C : skipComment (s ++ 42 :: 42 :: 47 :: rest) = (false, [])).
  { unfold skipComment. induction Hs as [|c s Hc Hs IH|c s Hc Hs IH]; cbn [app].
    - cbn [special_loop nth length Nat.leb]. change (42 =? 42) with true. cbv iota. change (42 =? 47) with false. cbv iota.
      change (47 =? 42) with false. cbv iota. now apply R.
    - cbn [special_loop nth]. replace (c =? 42) with false by lia. exact IH.
    - cbn [special_loop nth length Nat.leb]. change (42 =? 42) with true. cbv iota. replace (c =? 47) with false by lia. exact IH. }
  change (txt "/*" ++ s ++ txt "**/" ++ rest) with (47 :: 42 :: s ++ 42 :: 42 :: 47 :: rest).
  set (body := s ++ 42 :: 42 :: 47 :: rest) in *.
  assert (L : lexRound true false 47 (42 :: body) = Skip [] false [(EOFInComment, [])]).
  { change (lexRound true false 47 (42 :: body)) with
      (let '(found, rest) := skipComment body in
       if found then Tok CStyleComment rest false [] else Skip rest false [(EOFInComment, rest)]).
    now rewrite C. }
  destruct (skip_to_end false (start ms (47 :: 42 :: body)) _ _ _ _ _ eq_refl eq_refl L) as (t & q & E & T & Er).
  exists t, q. cbn [readAll hd]. rewrite E, T. split; [reflexivity|]. split; [reflexivity|]. now rewrite Er.
Qed.
Print Assumptions C77_comment_stars_refuted.

(** A zero, a minus and digits are read as one number. *)
Theorem C77_zero_minus_refuted ds ms : Forall digit ds ->
  exists loc q, readToken false (start ms (txt "0-" ++ ds)) = Got (mkToken loc NumericLiteral (txt "0-" ++ ds)) q.
Proof.
  intros H. change (txt "0-" ++ ds) with (48 :: 45 :: ds).
  assert (E : readNumericLiteral (48 :: 45 :: ds) = []).
  { change (readNumericLiteral (48 :: 45 :: ds)) with
      (skipSuffix (skipTail (negb (length (skipDigits 10 ds) =? length ds)%nat) (skipDigits 10 ds))).
    pose proof (skipDigits_run 10 digit ds [] digitValue_lt10 H ltac:(intros c X; discriminate X)) as K. rewrite app_nil_r in K. rewrite K.
    unfold skipTail. cbn [peekIs]. now rewrite andb_false_r. }
  assert (L : lexRound true false 48 (45 :: ds) = Tok NumericLiteral [] false []).
  { rewrite lexRound_default by (unfold identByte, digit; lia).
    change (readIdentifierOrLiteral (48 :: 45 :: ds)) with (Tok NumericLiteral (readNumericLiteral (48 :: 45 :: ds)) false []).
    now rewrite E. }
  destruct (take_one false (start ms (48 :: 45 :: ds)) _ _ _ _ _ _ _ eq_refl eq_refl L ltac:(discriminate)) as (q & R & _).
  eexists _, q. rewrite R. unfold between. rewrite Nat.sub_0_r, firstn_all. reflexivity.
Qed.
Print Assumptions C77_zero_minus_refuted.
(** A fraction below one with an exponent is read as a number and an identifier. *)
Theorem C77_exponent_refuted ms : ms = [] -> exists n a b e q,
  readAll n [] (start ms (txt "0.5e3")) = Some ([a; b; e], q) /\
  tokType a = NumericLiteral /\ tokText a = txt "0.5" /\ tokType b = Identifier /\ tokText b = txt "e3" /\ ppErrors q = [].
Proof. intros ->. exists 5%nat. eexists _, _, _, _. vm_compute. repeat split. Qed.
Print Assumptions C77_exponent_refuted.
(** A digit separator opens a character literal: the rest of the source is lost. *)
Theorem C77_separator_refuted rest : ~ In 39 rest -> ~ In 92 rest -> exists a e q,
  readAll 2 [] (start [] (txt "1'" ++ rest)) = Some ([a; e], q) /\ tokText a = txt "1" /\ tokType e = EndOfFile /\
  map fst (ppErrors q) = [EOFInStringLiteral].
Proof.
  intros H1 H2.
  assert (R : readString 39 rest = None).
  { induction rest as [|c r IH]; [reflexivity|]. cbn [readString].
    destruct (Z.eqb_spec c 92) as [->|_]; [exfalso; apply H2; now left|].
    destruct (Z.eqb_spec c 39) as [->|_]; [exfalso; apply H1; now left|].
    apply IH; intros X; [apply H1|apply H2]; now right. }
  change (txt "1'" ++ rest) with (49 :: 39 :: rest).
  assert (L1 : lexRound true false 49 (39 :: rest) = Tok NumericLiteral (39 :: rest) false []).
  { rewrite lexRound_default by (unfold identByte, digit; lia).
    change (readIdentifierOrLiteral (49 :: 39 :: rest)) with (Tok NumericLiteral (readNumericLiteral (49 :: 39 :: rest)) false []).
    f_equal. apply (readNumeric_decimal 49 [] [] [] [] (39 :: rest)); [unfold digit; lia|apply Forall_nil|now left|now left|now left|discriminate| |discriminate].
    apply stops_cons. unfold numEnd, identByte, identStart, digit. lia. }
  destruct (take_one false (start [] (49 :: 39 :: rest)) _ _ _ _ _ _ _ eq_refl eq_refl L1 ltac:(discriminate)) as (p1 & R1 & S1 & B1 & E1).
  assert (L2 : lexRound (ppBol p1) false 39 rest = Skip [] false [(EOFInStringLiteral, [])]).
  { rewrite B1. change (lexRound false false 39 rest) with (match readString 39 rest with
      | Some rest => Tok StringLiteral rest false [] | None => Skip [] false [(EOFInStringLiteral, [])] end).
    now rewrite R. }
  destruct (skip_to_end false p1 _ _ _ _ _ S1 eq_refl L2) as (e & q & R2 & T2 & E2).
  eexists _, e, q. cbn [readAll hd tl]. rewrite R1. cbn [tokType]. rewrite R2, T2. split; [reflexivity|].
  cbn [tokText]. split; [exact (between_app [49] (39 :: rest))|]. split; [reflexivity|]. now rewrite E2, E1.
Qed.
Print Assumptions C77_separator_refuted.
(** The line after a null directive may not be a directive. *)
Theorem C77_null_directive_refuted : exists n ts q, readAll n [] (start [] (txt "#
#endif
")) = Some (ts, q) /\ ppErrors q = [(DirectiveNotAtStartOfLine, 2)].
Proof. exists 5%nat. eexists _, _. vm_compute. split; reflexivity. Qed.
Print Assumptions C77_null_directive_refuted.
(** A comment before a directive on its line makes it an error. *)
Theorem C77_comment_directive_refuted : exists n ts q, readAll n [] (start [] (txt "/**/ #endif
")) = Some (ts, q) /\ ppErrors q = [(DirectiveNotAtStartOfLine, 5)].
Proof. exists 5%nat. eexists _, _. vm_compute. split; reflexivity. Qed.
Print Assumptions C77_comment_directive_refuted.
(** A define that is continued with an empty line takes the next line with it. *)
Theorem C77_define_refuted name line : Forall identByte name -> noNewline line -> ~ In 13 line ->
  forall rest, readDirective (txt "#define " ++ name ++ 92 :: 10 :: 10 :: line ++ rest) =
    (skipDefine (match rev line with c :: _ => c =? 92 | [] => true end) rest, true, []).
Proof.
  intros Hn Hl N rest.
  assert (L : forall l, noNewline l -> ~ In 13 l -> forall esc r,
    skipDefine esc (l ++ r) = skipDefine (match rev l with c :: _ => c =? 92 | [] => esc end) r).
  { induction l as [|c l IH] using rev_ind; intros H1 H2 esc r; [reflexivity|].
    rewrite <- app_assoc. apply Forall_app in H1 as [H1 H1']. inversion H1'; subst.
    rewrite IH; [|exact H1|intros X; apply H2, in_or_app; now left]. rewrite rev_app_distr. cbn [rev app skipDefine].
    replace (c =? 10) with false by lia. replace (c =? 13) with false; [reflexivity|].
    symmetry. apply Z.eqb_neq. intros ->. apply H2, in_or_app. right; now left. }
  assert (NM : noNewline name /\ ~ In 13 name).
  { split; [eapply Forall_impl; [|exact Hn]; cbn; unfold identByte, identStart, digit; lia|].
    intros X. rewrite Forall_forall in Hn. apply Hn in X. revert X. unfold identByte, identStart, digit. lia. }
  change (txt "#define " ++ name ++ 92 :: 10 :: 10 :: line ++ rest) with
    (35 :: 100 :: txt "efine" ++ 32 :: name ++ 92 :: 10 :: 10 :: line ++ rest).
  unfold readDirective. cbn [tl]. set (body := 32 :: name ++ 92 :: 10 :: 10 :: line ++ rest).
  change (directiveWhite (100 :: txt "efine" ++ body)) with (false, 100 :: txt "efine" ++ body).
  cbv iota. rewrite parse_identifier_run; [|reflexivity| |].
  2:{ repeat (constructor; [unfold identByte, identStart, digit; cbn; lia|]). constructor. }
  2:{ unfold body. apply stops_cons. unfold identByte, identStart, digit. lia. }
  cbv zeta. change (100 :: txt "efine" ++ body) with (txt "define" ++ body). rewrite between_app.
  change (match txt "define" with
    | [] => (skipLine body, true, [(InvalidDirective, body)])
    | _ => if existsb (bytesEqb (txt "define")) plainDirectives then (skipLine body, true, [])
           else if bytesEqb (txt "define") (txt "define") then (skipDefine false body, true, [])
           else (skipLine body, true, [(InvalidDirective, txt "define" ++ body)]) end =
    (skipDefine (match rev line with c :: _ => c =? 92 | [] => true end) rest, true, [])).
  replace (existsb (bytesEqb (txt "define")) plainDirectives) with false by (vm_compute; reflexivity).
  rewrite bytesEqb_refl. f_equal. f_equal. unfold body.
  change (skipDefine false (32 :: name ++ 92 :: 10 :: 10 :: line ++ rest)) with (skipDefine false (name ++ 92 :: 10 :: 10 :: line ++ rest)).
  destruct NM as [NM1 NM2]. rewrite (L name NM1 NM2).
  change (skipDefine ?e (92 :: 10 :: 10 :: ?r)) with (skipDefine true r). now rewrite (L line Hl N).
Qed.
Print Assumptions C77_define_refuted.
Example C77_define_ex : exists n ts q, readAll n [] (start [] (txt "#define A \

int x;
")) = Some (ts, q) /\ map tokType ts = [Directive; EndOfFile] /\ ppErrors q = [].
Proof. exists 3%nat. eexists _, _. vm_compute. repeat split. Qed.

(** A parenthesis in a string ends a macro's arguments. *)
Theorem C77_macro_string_refuted : exists n ts q,
  readAll n [] (start [mkMacro (txt "M") [] true] (txt "M("")"");")) = Some (ts, q) /\
  map tokText ts = [txt "M"; []] /\ map fst (ppErrors q) = [EOFInStringLiteral].
Proof. exists 3%nat. eexists _, _. vm_compute. repeat split. Qed.
Print Assumptions C77_macro_string_refuted.
(** A macro with its own name in its expansion is expanded for ever. *)
Theorem C77_recursive_macro_refuted n : readAll n [] (start [mkMacro (txt "A") (txt "A") false] (txt "A")) = None.
Proof.
  change (mkMacro (txt "A") (txt "A") false) with (mkMacro [65] [65] false). change (txt "A") with [65].
  set (m := mkMacro [65] [65] false).
  assert (R : forall n p it below, ppStack p = it :: below -> itRest it = [65] -> ppMacros p = [m] -> readAll n [] p = None).
  { clear n. induction n as [|n IH]; intros p it below HS HR HM; [reflexivity|].
    assert (T : exists loc q, readToken false p = Got (mkToken loc Macro [65]) q /\ ppStack q = mkItem (length (ppChains p)) [] [65] :: advance it [] :: below /\ ppMacros q = [m]).
    { unfold readToken. set (k := left p). cbn [readTokenF]. rewrite HS, HR.
      change (lexRound (ppBol p) false 65 []) with (Tok Identifier [] false []).
      cbv zeta. rewrite HM. change (findMacro (between [65] []) [m]) with (Some m). cbn [mArgs mText m].
      eexists _, _. split; [reflexivity|]. split; reflexivity. }
    destruct T as (loc & q & T & S2 & M2). cbn [readAll hd tl]. rewrite T. cbn [tokType]. now rewrite (IH q _ _ S2 eq_refl M2). }
  eapply R; reflexivity.
Qed.
Print Assumptions C77_recursive_macro_refuted.
(** The location of the name of a macro with an expansion leads into the expansion, for which
    expandFileLocation has no answer (its assertion fails). *)
Theorem C77_macro_location_refuted c s r :
  exists t q ch, readToken false (start [mkMacro (txt "M") (c :: s) false] (txt "M " ++ r)) = Got t q /\ tokType t = Macro /\
    expandLoc (ppMap q) (tokLoc t) = Some (1%nat, 0) /\ nth_error (ppChains q) 1 = Some ch /\ chMacro ch = true.
Proof.
  change (txt "M " ++ r) with (77 :: 32 :: r). change (txt "M") with [77]. set (m := mkMacro [77] (c :: s) false).
  assert (T : exists q, readToken false (start [m] (77 :: 32 :: r)) =
      Got (mkToken (linearLoc (zlen (77 :: 32 :: r)) (77 :: 32 :: r)) Macro [77]) q /\
      ppMap q = [mkLoc 0 0 0] ++ [mkLoc (linearLoc (zlen (77 :: 32 :: r)) (77 :: 32 :: r)) 1 0] /\
      nth_error (ppChains q) 1 = Some (mkChain (c :: s) true 0)).
  { unfold readToken. set (p := start [m] (77 :: 32 :: r)). set (k := left p). cbn [readTokenF].
    change (ppStack p) with [mkItem 0 [] (77 :: 32 :: r)]. cbn [itRest].
    change (lexRound (ppBol p) false 77 (32 :: r)) with (Tok Identifier (32 :: r) false []). cbv beta iota zeta.
    change (between (77 :: 32 :: r) (32 :: r)) with (between ([77] ++ 32 :: r) (32 :: r)). rewrite between_app.
    change (findMacro [77] (ppMacros p)) with (Some m). cbn [mArgs m mText].
    eexists. split; [reflexivity|]. split; reflexivity. }
  destruct T as (q & T & EM & EC). exists (mkToken (linearLoc (zlen (77 :: 32 :: r)) (77 :: 32 :: r)) Macro [77]), q, (mkChain (c :: s) true 0).
  split; [exact T|]. split; [reflexivity|]. cbn [tokLoc]. unfold linearLoc in EM |- *. rewrite Z.sub_diag in EM |- *. rewrite EM.
  split; [reflexivity|]. split; [exact EC|reflexivity].
Qed.
Print Assumptions C77_macro_location_refuted.
