(* Properties of the parser of Crowbar scripts. *)
From Coq Require Import Lia String.
From Verif Require Import Base Txt CrowbarModel CrowbarSpec CrowbarMain CrowbarMono.
From Verif Require Import CrowbarParse CrowbarText CrowbarTok CrowbarEnds CrowbarRead CrowbarReadFile CrowbarSafe.
From Verif Require Import NumTextSpec.
From Verif Require CrowbarProps.
Local Open Scope string_scope.
Local Open Scope list_scope.
Local Open Scope Z_scope.
Local Notation length := List.length.

(* ---- C75 ---- *)
(** A text that spells a script by the rules of CrowbarText.v is accepted, to its end, and parsed as
    just that script. *)
Theorem C75_script_is_parsed_as_written_partial fns src : spells_script fns src -> parseFile src = Ok fns [].
Proof. exact (parse_script fns src). Qed.
Print Assumptions C75_script_is_parsed_as_written_partial.

(** So is an expression, wherever it stands: what follows is left alone. *)
Theorem C75_expression_is_parsed_as_written_partial nl lvl tail e s rest t st r :
  spells nl lvl tail e s -> apart rest -> token nl rest = (t, st, r) -> In t [TEOF; TNewLine; TSemi; TComma; TRParen; TRCurly; TLCurly; TEqual] ->
  exists k, pExpr k nl anyLevel (s ++ rest) = Ok e st.
Proof.
  intros S A T I. eapply in_place; eauto.
  - exact (proj1 spells_read _ _ _ _ _ S).
  - eapply spells_level; eauto.
  - cbn in I. repeat (destruct I as [<-|I]; [repeat split; discriminate|]). contradiction.
Qed.
Print Assumptions C75_expression_is_parsed_as_written_partial.

(** A text spells at most one script. *)
Theorem C75_spelling_is_unambiguous fns fns' src : spells_script fns src -> spells_script fns' src -> fns = fns'.
Proof. intros H H'. apply parse_script in H, H'. congruence. Qed.
Print Assumptions C75_spelling_is_unambiguous.

(** Parsing ends on every source, and only a string can make it fail an assertion. *)
Theorem C75_parsing_ends src : parseFile src <> Deep.
Proof. exact (parsing_ends src). Qed.
Print Assumptions C75_parsing_ends.
Theorem C75_only_strings_break src : ~ In 34 src -> parseFile src <> Broken.
Proof. exact (only_strings_break src). Qed.
Print Assumptions C75_only_strings_break.
Example C75_only_strings_break_ex : ~ In 34 (txt "fn f({") /\ parseFile (txt "fn f({") = Reject.
Proof. split; [vm_compute; intuition discriminate|reflexivity]. Qed.

(** From the text of a script to its output. *)
Theorem C75_text_to_output_partial k fns src f o :
  spells_script fns src -> plain fns = true -> prints k fns f = Some o -> o <> Crash -> runScript k src f = Ran o.
Proof.
  intros S P M N. unfold runScript. rewrite (parse_script _ _ S).
  rewrite (script_runs k fns f P) by congruence. rewrite M. reflexivity.
Qed.
Print Assumptions C75_text_to_output_partial.

(* ---- C75, a script that is spelled ---- *)
Definition C75_text : list Z := txt
"fn gcd(a, b) {
    if a % b == 0 // the end
        return b + 0
    else
        return gcd(b + 0, a % b)
}
fn test() {
    x = 2 * (7 - 3) - 1; while x > -7 { /* not
 reached */ print(x + 0) }
    print(""gcd: ${gcd(36, 96)}\."")
}
".
Definition C75_script : list fndef :=
  [ CrowbarProps.Fn "gcd" ["a"; "b"]
      [ SIf (EBin OEq (EBin OMod (CrowbarProps.V "a") (CrowbarProps.V "b")) (EInt 0))
          [SReturn (EBin OAdd (CrowbarProps.V "b") (EInt 0))]
          (Some [SReturn (CrowbarProps.Call "gcd" [EBin OAdd (CrowbarProps.V "b") (EInt 0); EBin OMod (CrowbarProps.V "a") (CrowbarProps.V "b")])]) ];
    CrowbarProps.Fn "test" []
      [ CrowbarProps.Set_ "x" (EBin OSub (EBin OMul (EInt 2) (EBin OSub (EInt 7) (EInt 3))) (EInt 1));
        SWhile (EBin OGt (CrowbarProps.V "x") (EUn UNeg (EInt 7))) [CrowbarProps.Print (EBin OAdd (CrowbarProps.V "x") (EInt 0))];
        CrowbarProps.Print (EStr [(txt "gcd: ", Some (CrowbarProps.Call "gcd" [EInt 36; EInt 96])); (txt ".", None)]) ] ].

Ltac gap_tac := vm_compute; repeat first [apply gap_nil | apply gap_blank; [solve [auto]|] | apply gap_newline; [reflexivity|]].
Ltac word_tac := split;
  [ cbn; split; [unfold letter; lia | repeat (apply Forall_cons; [unfold letterOrDigit, letter; lia|]); apply Forall_nil]
  | cbn; intros Q; repeat destruct Q as [Q|Q]; try discriminate; contradiction ].
Ltac name_tac n := refine (sp_name _ (txt " ") (txt n) _ _) || refine (sp_name _ (txt "") (txt n) _ _); [gap_tac|word_tac].
Lemma digit_denotes d : 0 <= d < 10 -> denotes 10 [48 + d] d.
Proof. intros D. apply (den_snoc 10 [] 0 (48 + d) d); [constructor|left; lia|lia]. Qed.
Ltac digit_tac d := (refine (sp_int _ (txt " ") [48 + d] d _ _ _ _ _) || refine (sp_int _ (txt "") [48 + d] d _ _ _ _ _));
  [gap_tac|discriminate|repeat constructor; cbn; lia|apply digit_denotes; lia|lia].
Lemma two_digits a b : 0 <= a < 10 -> 0 <= b < 10 -> denotes 10 [48 + a; 48 + b] (a * 10 + b).
Proof. intros A B. apply (den_snoc 10 [48 + a] a (48 + b) b); [apply digit_denotes; lia|left; lia|lia]. Qed.

Example C75_text_ex : spells_script C75_script C75_text.
Proof.
  refine (sf_fn [] (txt " ") (txt "gcd") [] [txt "a"; txt "b"] (txt "a, b)") (txt " ") _ (txt "
    if a % b == 0 // the end
        return b + 0
    else
        return gcd(b + 0, a % b)
}") [_] (txt "
fn test() {
    x = 2 * (7 - 3) - 1; while x > -7 { /* not
 reached */ print(x + 0) }
    print(""gcd: ${gcd(36, 96)}\."")
}
") _ _ _ _ _ _ _ _ _); [gap_tac|gap_tac|discriminate|word_tac|gap_tac| |gap_tac| |].
  - refine (pa_more [] (txt "a") [] [txt "b"] (txt " b)") _ _ _ _ _); [gap_tac|word_tac|gap_tac|discriminate|].
    refine (pa_last (txt " ") (txt "b") [] _ _ _); [gap_tac|word_tac|gap_tac].
  - refine (sk_line false [] [10] _ (txt "    if a % b == 0 // the end
        return b + 0
    else
        return gcd(b + 0, a % b)
}") _ _ _); [gap_tac|constructor|].
    refine (sk_control false _ (txt "    if a % b == 0 // the end
        return b + 0
    else
        return gcd(b + 0, a % b)") [] (10 :: txt "}") _ _).
    2:{ refine (sk_line true [] [10] [] (txt "}") _ _ _); [gap_tac|constructor|]. refine (sk_end false [] _). gap_tac. }
    refine (sc_else (txt "    ") 7 false _ (txt " a % b == 0") false _ (txt " // the end
        return b + 0") (10 :: txt "    ") false _ (10 :: txt "        return gcd(b + 0, a % b)") _ _ _ _ _ _ _);
      [gap_tac| | | |gap_tac|discriminate|].
    + refine (sp_binary _ OEq 3 _ (txt " a % b") (txt " ") 0 false _ (txt " 0") _ _ _ _ _ _); [ |cbn; lia|gap_tac|digit_tac 0|cbn; lia|discriminate].
      refine (sp_binary _ OMod 0 _ (txt " a") (txt " ") 0 false _ (txt " b") _ _ _ _ _ _); [name_tac "a"|cbn; lia|gap_tac|name_tac "b"|cbn; lia|discriminate].
    + cbn. unfold letterOrDigit, letter. lia.
    + refine (sb_return (txt " // the end
        ") 4 false _ (txt " b + 0") _ _ _ _); [ |discriminate| |].
      * refine (gap_blank false 32 (txt "// the end
        ") _ _); [auto|]. refine (gap_line false (txt " the end") (txt "        ") _ _ _); [reflexivity| |gap_tac].
        vm_compute. intuition discriminate.
      * refine (sp_binary _ OAdd 0 _ (txt " b") (txt " ") 0 false _ (txt " 0") _ _ _ _ _ _); [name_tac "b"|cbn; lia|gap_tac|digit_tac 0|cbn; lia|discriminate].
      * cbn. unfold letterOrDigit, letter. lia.
    + refine (sb_return (10 :: txt "        ") 0 false _ (txt " gcd(b + 0, a % b)") _ _ _ _); [gap_tac|discriminate| |cbn; unfold letterOrDigit, letter; lia].
      refine (sp_call _ _ (txt " gcd") [] _ (txt "b + 0, a % b)") _ _ _); [name_tac "gcd"|gap_tac|].
      refine (sa_more 4 false _ (txt "b + 0") [] _ (txt " a % b)") _ _ _ _); [ |gap_tac|discriminate|].
      * refine (sp_binary _ OAdd 0 _ (txt "b") (txt " ") 0 false _ (txt " 0") _ _ _ _ _ _); [name_tac "b"|cbn; lia|gap_tac|digit_tac 0|cbn; lia|discriminate].
      * refine (sa_last 3 false _ (txt " a % b") [] _ _); [|gap_tac].
        refine (sp_binary _ OMod 0 _ (txt " a") (txt " ") 0 false _ (txt " b") _ _ _ _ _ _); [name_tac "a"|cbn; lia|gap_tac|name_tac "b"|cbn; lia|discriminate].
  - refine (sf_fn [10] (txt " ") (txt "test") [] [] (txt ")") (txt " ") _ (txt "
    x = 2 * (7 - 3) - 1; while x > -7 { /* not
 reached */ print(x + 0) }
    print(""gcd: ${gcd(36, 96)}\."")
}") [] [10] _ _ _ _ _ _ _ _ _); [gap_tac|gap_tac|discriminate|word_tac|gap_tac| |gap_tac| |].
    1:{ refine (pa_none [] _). gap_tac. }
    2:{ refine (sf_end [10] _). gap_tac. }
    refine (sk_line false [] [10] _ (txt "    x = 2 * (7 - 3) - 1; while x > -7 { /* not
 reached */ print(x + 0) }
    print(""gcd: ${gcd(36, 96)}\."")
}") _ _ _); [gap_tac|constructor|].
    refine (sk_simple _ (txt "    x = 2 * (7 - 3) - 1") _ (txt "; while x > -7 { /* not
 reached */ print(x + 0) }
    print(""gcd: ${gcd(36, 96)}\."")
}") _ _).
    + refine (sm_assign 0 false _ (txt "    x") (txt " ") 4 false _ (txt " 2 * (7 - 3) - 1") _ _ _); [ |gap_tac|].
      * refine (sp_name _ (txt "    ") (txt "x") _ _); [gap_tac|word_tac].
      * refine (sp_binary _ OSub 3 _ (txt " 2 * (7 - 3)") (txt " ") 0 false _ (txt " 1") _ _ _ _ _ _); [ |cbn; lia|gap_tac|digit_tac 1|cbn; lia|discriminate].
        refine (sp_binary _ OMul 0 _ (txt " 2") (txt " ") 0 false _ (txt " (7 - 3)") _ _ _ _ _ _); [digit_tac 2|cbn; lia|gap_tac| |cbn; lia|discriminate].
        refine (sp_paren _ (txt " ") 4 false _ (txt "7 - 3") [] _ _ _); [gap_tac| |gap_tac].
        refine (sp_binary _ OSub 0 _ (txt "7") (txt " ") 0 false _ (txt " 3") _ _ _ _ _ _); [digit_tac 7|cbn; lia|gap_tac|digit_tac 3|cbn; lia|discriminate].
    + refine (sk_semicolon true [] _ (txt " while x > -7 { /* not
 reached */ print(x + 0) }
    print(""gcd: ${gcd(36, 96)}\."")
}") _ _); [gap_tac|].
      refine (sk_control true _ (txt " while x > -7 { /* not
 reached */ print(x + 0) }") _ (10 :: txt "    print(""gcd: ${gcd(36, 96)}\."")
}") _ _).
      * refine (sc_while (txt " ") 6 true _ (txt " x > -7") true _ (txt " { /* not
 reached */ print(x + 0) }") _ _ _ _); [gap_tac| |cbn; unfold letterOrDigit, letter; lia|].
        -- refine (sp_binary _ OGt 0 _ (txt " x") (txt " ") 2 true _ (txt " -7") _ _ _ _ _ _); [name_tac "x"|cbn; lia|gap_tac| |cbn; lia|discriminate].
           refine (sp_unary _ (txt " ") UNeg 0 false _ (txt "7") _ _ _); [gap_tac|digit_tac 7|lia].
        -- refine (sb_block (txt " ") _ (txt " /* not
 reached */ print(x + 0) }") _ _); [gap_tac|].
           refine (sk_simple _ (txt " /* not
 reached */ print(x + 0)") [] (txt " }") _ _); [|refine (sk_end true (txt " ") _); gap_tac].
           refine (sm_eval 0 false _ (txt " /* not
 reached */ print(x + 0)") _).
           refine (sp_call _ _ (txt " /* not
 reached */ print") [] _ (txt "x + 0)") _ _ _); [ |gap_tac|].
           ++ refine (sp_name _ (txt " /* not
 reached */ ") (txt "print") _ _); [|word_tac].
              refine (gap_blank true 32 (txt "/* not
 reached */ ") _ _); [auto|]. refine (gap_comment true (txt " not
 reached ") (txt " ") _ _); [|gap_tac].
              intros a b E. assert (I : In 42 (txt " not
 reached ")) by (rewrite E; apply in_or_app; right; left; reflexivity). vm_compute in I. intuition discriminate.
           ++ refine (sa_last 4 false _ (txt "x + 0") [] _ _); [|gap_tac].
              refine (sp_binary _ OAdd 0 _ (txt "x") (txt " ") 0 false _ (txt " 0") _ _ _ _ _ _); [name_tac "x"|cbn; lia|gap_tac|digit_tac 0|cbn; lia|discriminate].
      * refine (sk_line false [] [10] _ (txt "    print(""gcd: ${gcd(36, 96)}\."")
}") _ _ _); [gap_tac|constructor|].
        refine (sk_simple _ (txt "    print(""gcd: ${gcd(36, 96)}\."")") [] (10 :: txt "}") _ _).
        2:{ refine (sk_line true [] [10] [] (txt "}") _ _ _); [gap_tac|constructor|]. refine (sk_end false [] _). gap_tac. }
        refine (sm_eval 0 false _ (txt "    print(""gcd: ${gcd(36, 96)}\."")") _).
        refine (sp_call _ _ (txt "    print") [] _ (txt """gcd: ${gcd(36, 96)}\."")") _ _ _); [ |gap_tac|].
        -- refine (sp_name _ (txt "    ") (txt "print") _ _); [gap_tac|word_tac].
        -- refine (sa_last 0 false _ (txt """gcd: ${gcd(36, 96)}\.""") [] _ _); [|gap_tac].
           refine (sp_str _ [] _ (txt "gcd: ${gcd(36, 96)}\.""") _ _); [gap_tac|].
           refine (ss_embed (txt "gcd: ") (txt "gcd: ") 0 false _ (txt "gcd(36, 96)") [] _ (txt "\.""") _ _ _ _).
           ++ vm_compute. repeat (apply lit_plain; [discriminate|discriminate|discriminate|]). constructor.
           ++ refine (sp_call _ _ (txt "gcd") [] _ (txt "36, 96)") _ _ _); [name_tac "gcd"|gap_tac|].
              refine (sa_more 0 false _ (txt "36") [] _ (txt " 96)") _ _ _ _); [ |gap_tac|discriminate|].
              ** refine (sp_int _ [] [48 + 3; 48 + 6] (3 * 10 + 6) _ _ _ _ _); [gap_tac|discriminate|repeat constructor; cbn; lia|apply two_digits; lia|lia].
              ** refine (sa_last 0 false _ (txt " 96") [] _ _); [|gap_tac].
                 refine (sp_int _ (txt " ") [48 + 9; 48 + 6] (9 * 10 + 6) _ _ _ _ _); [gap_tac|discriminate|repeat constructor; cbn; lia|apply two_digits; lia|lia].
           ++ gap_tac.
           ++ refine (ss_literal (txt ".") (txt "\.") _ _); [discriminate|]. vm_compute. apply lit_escaped. constructor.
Qed.
Example C75_output_ex : runScript 40 C75_text (txt "test") = Ran (Done (CrowbarProps.text ["gcd: 12."])).
Proof.
  apply (C75_text_to_output_partial 40 C75_script); [exact C75_text_ex|reflexivity|vm_compute; reflexivity|discriminate].
Qed.

(* ---- C75, where the parser departs from what is written ---- *)
Lemma wrapped body b : itemsTo [] body b [] -> parseFile (txt "fn f(){" ++ body) = Ok [FnDef (txt "f") [] b] [].
Proof.
  intros [k H]. apply (file_says (S (S k))). cbn [pFile].
  change (token false (txt "fn f(){" ++ body)) with (TIdent k_fn, txt "fn f(){" ++ body, txt " f(){" ++ body).
  cbv iota beta. change (bytes_eqb k_fn k_fn) with true. cbv iota. unfold pFn.
  change (token false (txt " f(){" ++ body)) with (TIdent (txt "f"), txt "f(){" ++ body, txt "(){" ++ body). cbv iota beta.
  change (token false (txt "(){" ++ body)) with (TLParen, txt "(){" ++ body, txt "){" ++ body). cbv iota beta.
  change (pParams (S k) [] (txt "){" ++ body)) with (Ok (@nil name) (txt "{" ++ body)). cbn [pbind].
  change (token false (txt "{" ++ body)) with (TLCurly, txt "{" ++ body, body). cbv iota beta.
  rewrite (items_more k (S k) _ _ _ _ ltac:(lia) H). reflexivity.
Qed.
Lemma wrapped_not k body x : pItems (S k) [] body = x -> x = Reject \/ x = Broken ->
  parseFile (txt "fn f(){" ++ body) = match x with Broken => Broken | _ => Reject end.
Proof.
  intros H X. apply (file_settles (S (S k))); [|destruct X as [-> | ->]; discriminate].
  remember (S k) as k' eqn:E. cbn [pFile].
  change (token false (txt "fn f(){" ++ body)) with (TIdent k_fn, txt "fn f(){" ++ body, txt " f(){" ++ body).
  cbv iota beta. change (bytes_eqb k_fn k_fn) with true. cbv iota. unfold pFn.
  change (token false (txt " f(){" ++ body)) with (TIdent (txt "f"), txt "f(){" ++ body, txt "(){" ++ body). cbv iota beta.
  change (token false (txt "(){" ++ body)) with (TLParen, txt "(){" ++ body, txt "){" ++ body). cbv iota beta.
  replace (pParams k' [] (txt "){" ++ body)) with (Ok (@nil name) (txt "{" ++ body)) by (subst k'; reflexivity). cbn [pbind].
  change (token false (txt "{" ++ body)) with (TLCurly, txt "{" ++ body, body). cbv iota beta.
  rewrite H. destruct X as [-> | ->]; reflexivity.
Qed.
Lemma items_not k src t st rest : token true src = (t, st, rest) -> initial t ->
  (pStmt k st = Reject -> pItems (S k) [] src = Reject) /\ (pStmt k st = Broken -> pItems (S k) [] src = Broken).
Proof. intros T N. split; intros H; cbn [pItems]; rewrite T; destruct t; try contradiction; rewrite H; reflexivity. Qed.
Lemma evaluated s e t st r : token true (s ++ txt "}") = (t, st, r) -> begins t -> exprTo true anyLevel (s ++ txt "}") e (txt "}") ->
  parseFile (txt "fn f(){" ++ s ++ txt "}") = Ok [FnDef (txt "f") [] [SEval e]] [].
Proof.
  intros T B E. apply wrapped. eapply I_stmt with (s := SEval e); [exact T|apply begins_initial; exact B| |].
  - eapply M_eval; [exact T|exact B|exact E|reflexivity|discriminate|reflexivity].
  - eapply I_end. reflexivity.
Qed.

(** The operand of a unary operator takes in every binary operator after it: [-a+b] is parsed as
    -(a + b), [!a==b] as !(a == b); in fact, a unary operator applies to all of any expression written
    after it. *)
Theorem C75_unary_operator_takes_all_refuted op lvl tail e s : spells true lvl tail e s ->
  parseFile (txt "fn f(){" ++ (unsymbol op :: s) ++ txt "}") = Ok [FnDef (txt "f") [] [SEval (EUn op e)]] [].
Proof.
  intros S. apply evaluated with (t := match op with UNeg => TMinus | UNot => TBang | UCompl => TTilde end)
    (st := unsymbol op :: s ++ txt "}") (r := s ++ txt "}").
  - destruct op; reflexivity.
  - destruct op; exact I.
  - apply E_un with (t := match op with UNeg => TMinus | UNot => TBang | UCompl => TTilde end) (op := op)
      (st := unsymbol op :: s ++ txt "}") (rest := s ++ txt "}") (e0 := e) (s := txt "}").
    + destruct op; reflexivity.
    + destruct op; reflexivity.
    + eapply in_place_true; [exact S| |reflexivity|repeat split; discriminate]. cbn. unfold letterOrDigit, letter. lia.
    + eapply L_stop; [reflexivity|repeat split; discriminate].
Qed.
Print Assumptions C75_unary_operator_takes_all_refuted.
Corollary C75_sum_after_minus_refuted a b : word a -> word b ->
  parseFile (txt "fn f(){-" ++ a ++ txt " + " ++ b ++ txt "}") =
    Ok [FnDef (txt "f") [] [SEval (EUn UNeg (EBin OAdd (EName a) (EName b)))]] [].
Proof.
  intros A B. pose proof (C75_unary_operator_takes_all_refuted UNeg 4 false (EBin OAdd (EName a) (EName b)) (a ++ txt " + " ++ b)) as H.
  change (txt "fn f(){-" ++ a ++ txt " + " ++ b ++ txt "}") with (txt "fn f(){" ++ 45 :: a ++ txt " + " ++ b ++ txt "}").
  cbn [unsymbol] in H. cbn [app] in H. rewrite <- !app_assoc in H. apply H.
  refine (sp_binary true OAdd 0 (EName a) a (txt " ") 0 false (EName b) (txt " " ++ b) _ _ _ _ _ _);
    [exact (sp_name true [] a (gap_nil _) A)|cbn; lia|gap_tac|refine (sp_name true (txt " ") b _ B); gap_tac|cbn; lia|discriminate].
Qed.
Print Assumptions C75_sum_after_minus_refuted.
(** So the script below prints another number than it means. *)
Theorem C75_wrong_sum_refuted :
  prints 9 [CrowbarProps.Fn "test" [] [CrowbarProps.Print (EBin OAdd (EUn UNeg (EInt 1)) (EInt 2))]] (txt "test") =
    Some (Done (CrowbarProps.text ["1"])) /\
  forall k, (9 <= k)%nat -> runScript k (txt "fn test() { print(-1 + 2) }") (txt "test") = Ran (Done (CrowbarProps.text ["4294967293"])).
Proof.
  split; [vm_compute; reflexivity|]. intros k L. unfold runScript.
  replace (parseFile (txt "fn test() { print(-1 + 2) }"))
    with (Ok [CrowbarProps.Fn "test" [] [CrowbarProps.Print (EUn UNeg (EBin OAdd (EInt 1) (EInt 2)))]] (@nil Z)) by (vm_compute; reflexivity).
  rewrite (script_settles 9 k _ (txt "test") (Done (CrowbarProps.text ["4294967293"])) L); [reflexivity|vm_compute; reflexivity|discriminate].
Qed.
Print Assumptions C75_wrong_sum_refuted.

(** Every number of 2^32 or more is parsed as 0, without an error. *)
Theorem C75_large_number_refuted t v : t <> [] -> Forall (fun c => 48 <= c <= 57) t -> denotes 10 t v -> 2 ^ 32 <= v ->
  parseFile (txt "fn f(){" ++ t ++ txt "}") = Ok [FnDef (txt "f") [] [SEval (EInt 0)]] [].
Proof.
  intros N F V L. assert (A : apart (txt "}")) by (cbn; unfold letterOrDigit, letter; lia).
  assert (T : token true (t ++ txt "}") = (TNum t, t ++ txt "}", txt "}")) by (apply number_token; auto).
  eapply evaluated; [exact T|exact I|]. eapply E_num; [exact T| |].
  - rewrite (number_value t v) by auto. replace (v <? 2 ^ 32) with false by lia. reflexivity.
  - eapply L_stop; [reflexivity|repeat split; discriminate].
Qed.
Print Assumptions C75_large_number_refuted.
Example C75_large_number_ex : parseFile (txt "fn f(){4294967296}") = Ok [FnDef (txt "f") [] [SEval (EInt 0)]] [].
Proof. reflexivity. Qed.

(** Two statements on one line are an error unless the first one is a return. *)
Theorem C75_after_return_refuted a b : word a -> word b ->
  parseFile (txt "fn f(){" ++ txt "return " ++ a ++ txt " " ++ b ++ txt "}") = Ok [FnDef (txt "f") [] [SReturn (EName a); SEval (EName b)]] [] /\
  parseFile (txt "fn f(){" ++ a ++ txt " " ++ b ++ txt "}") = Reject.
Proof.
  intros A B. assert (Ap : apart (txt "}")) by (cbn; unfold letterOrDigit, letter; lia).
  assert (Ap' : apart (txt " " ++ b ++ txt "}")) by (cbn; unfold letterOrDigit, letter; lia).
  assert (Tb : token true (b ++ txt "}") = (TIdent b, b ++ txt "}", txt "}")) by (apply word_token; [apply B|exact Ap]).
  assert (Tb' : token true (txt " " ++ b ++ txt "}") = (TIdent b, b ++ txt "}", txt "}")) by (transitivity (token true (b ++ txt "}")); [reflexivity|exact Tb]).
  assert (Bb : begins (TIdent b)) by (apply B). assert (Ba : begins (TIdent a)) by (apply A).
  assert (Ta : token true (a ++ txt " " ++ b ++ txt "}") = (TIdent a, a ++ txt " " ++ b ++ txt "}", txt " " ++ b ++ txt "}")) by (apply word_token; [apply A|exact Ap']).
  split.
  - apply wrapped. eapply I_stmt with (s := SReturn (EName a)) (t := TIdent k_return); [reflexivity|exact I| |].
    + eapply M_return; [reflexivity|].
      eapply (in_place_true 0 false (EName a) (txt " " ++ a)); [refine (sp_name true (txt " ") a _ A); gap_tac|exact Ap'|exact Tb'|repeat split; discriminate].
    + eapply I_stmt with (s := SEval (EName b)); [exact Tb|exact I| |].
      * eapply M_eval with (s1 := txt "}"); [exact Tb|exact Bb| |reflexivity|discriminate|reflexivity].
        eapply E_name; [exact Tb|]. eapply L_stop; [reflexivity|repeat split; discriminate].
      * eapply I_end. reflexivity.
  - set (body := a ++ txt " " ++ b ++ txt "}") in *. apply (wrapped_not 3 body Reject); auto.
    apply (items_not 3 _ _ _ _ Ta I).
    assert (E : forall k, pExpr (S (S k)) true anyLevel body = Ok (EName a) (b ++ txt "}")).
    { intros k. cbn [pExpr]. rewrite Ta. cbn [pLoop]. rewrite Tb'. reflexivity. }
    specialize (E 0%nat). remember 2%nat as k eqn:Ek. cbn [pStmt]. rewrite Ta. cbv zeta.
    destruct (begins_words (TIdent a) Ba) as (-> & -> & ->).
    rewrite E. cbn [pbind]. rewrite Tb. unfold endOfStatement. rewrite Tb. reflexivity.
Qed.
Print Assumptions C75_after_return_refuted.

(** A string that is not closed fails an assertion. *)
Theorem C75_unclosed_string_refuted t : ~ In 34 t -> ~ In 92 t -> ~ In 123 t ->
  parseFile (txt "fn f(){" ++ 34 :: t) = Broken.
Proof.
  intros N1 N2 N3.
  assert (R : forall t acc, ~ In 34 t -> ~ In 92 t -> ~ In 123 t -> readStr acc t = None).
  { clear. intros t. induction t as [|c t IH]; intros acc N1 N2 N3; [reflexivity|]. cbn [readStr].
    assert (H : forall acc, readStr acc t = None).
    { intros acc'. apply IH; intros I; [apply N1|apply N2|apply N3]; right; exact I. }
    replace (c =? 92) with false by (symmetry; apply Z.eqb_neq; intros ->; apply N2; left; reflexivity).
    replace (c =? 34) with false by (symmetry; apply Z.eqb_neq; intros ->; apply N1; left; reflexivity).
    destruct (c =? 36); [|apply H]. destruct t as [|d t]; [apply H|].
    replace (d =? 123) with false by (symmetry; apply Z.eqb_neq; intros ->; apply N3; right; left; reflexivity). apply H. }
  set (body := 34 :: t). assert (T : token true body = (TBegin, body, t)) by reflexivity.
  apply (wrapped_not 3 body Broken); auto. apply (items_not 3 _ _ _ _ T I).
  assert (E : forall k, pExpr (S (S k)) true anyLevel body = Broken).
  { intros k. cbn [pExpr]. rewrite T. cbn [pStr]. rewrite (R t []) by auto. reflexivity. }
  specialize (E 0%nat). remember 2%nat as k eqn:Ek. cbn [pStmt]. rewrite T. cbv zeta.
  change (bytes_eqb [] k_if) with false. change (bytes_eqb [] k_while) with false. change (bytes_eqb [] k_return) with false. cbv iota.
  rewrite E. reflexivity.
Qed.
Print Assumptions C75_unclosed_string_refuted.
