(* C93: generated directives are put into source files where they belong, and nothing else changes. *)
From Coq Require Import String.
From Verif Require Import Base Txt SubstModel SubstSpec SubstProofs SubstMore.
Local Open Scope string_scope.
Local Open Scope list_scope.
Local Open Scope Z_scope.
Local Notation length := List.length.

(** C93. Substitutions replace exactly their parts of the file. *)
Theorem C93_exact : forall ps rest, rest <> [] -> performSubsts (before ps rest) (ranges 0 ps) = Some (after ps rest).
Proof. intros ps rest H. exact (loop_exact ps [] rest H). Qed.
Print Assumptions C93_exact.
Example C93_exact_case : performSubsts (txt "one two three") [Subst 0 3 (txt "1"); Subst 4 3 []; Subst 8 0 (txt "3=")] = Some (txt "1  3=three").
Proof. reflexivity. Qed.

(** C93. Whatever the substitutions are, if a text results then it is the file with just these parts replaced, in
    the order of the file and not overlapping. *)
Theorem C93_only : forall src substs out, performSubsts src substs = Some out ->
  exists ps rest, src = before ps rest /\ substs = ranges 0 ps /\ out = after ps rest.
Proof. intros src substs out H. destruct (loop_only substs [] src out H) as (ps & rest & H1 & H2 & H3 & _). now exists ps, rest. Qed.
Print Assumptions C93_only.

(** C93 would have any part of a file replaced. A part at the very end fails an assertion. *)
Theorem C93_end_refuted : forall ps, ps <> [] -> performSubsts (before ps []) (ranges 0 ps) = None.
Proof. intros ps H. exact (loop_end ps [] H). Qed.
Print Assumptions C93_end_refuted.
(** As when a generated directive is the last line of a file. *)
Example C93_end_case : codegen (txt "int x;" ++ [10] ++ switchDirective (txt "s.inl")) [Include 7] = None.
Proof. reflexivity. Qed.

(** C93. Generated includes, which are those whose line ends in the mark, are removed with their lines; other
    includes and all other lines stay as they are. *)
Theorem C93_lines : forall ls tail, Forall line_ok ls -> tail <> [] ->
  codegen (file ls ++ tail) (includes 0 ls) = Some (file (filter (fun l => negb (isGenerated l)) ls) ++ tail).
Proof. exact lines_ok. Qed.
Print Assumptions C93_lines.
Example C93_lines_case :
  Forall line_ok [Own [] (txt "include <a.h>"); Generated [32; 32] (txt "include <b.inl> ") [13]; Plain (txt "int x; //@@ply")] /\
  codegen (file [Own [] (txt "include <a.h>"); Generated [32; 32] (txt "include <b.inl> ") [13]; Plain (txt "int x; //@@ply")] ++ txt "}")
    [Include 0; Include 17] = Some (txt "#include <a.h>" ++ [10] ++ txt "int x; //@@ply" ++ [10] ++ txt "}").
Proof.
  split; [|reflexivity].
  assert (H : forall s, existsb (Z.eqb 10) s = false -> oneLine s).
  { intros s Hs Hi. assert (existsb (Z.eqb 10) s = true); [|congruence]. apply existsb_exists. exists 10. now split. }
  constructor; [|constructor; [|constructor; [|constructor]]].
  - split; [apply H; reflexivity|]. intros a w E Hw.
    assert (Hi : In 64 ([35] ++ txt "include <a.h>")). { rewrite E. apply in_or_app. right. cbn. tauto. }
    cbn in Hi. repeat (destruct Hi as [Hi|Hi]; [discriminate|]). exact Hi.
  - split; [apply H; reflexivity|]. constructor; [now right; right|constructor].
  - split; [apply H; reflexivity|exact I].
Qed.

(** C93. A directive for a switch whose brace is first in its line is put before this line. *)
Theorem C93_own : forall a w rest name, fresh a -> blanks w ->
  codegen (a ++ w ++ [125] ++ rest) [Switch (length a + length w) name] = Some (a ++ switchDirective name ++ w ++ [125] ++ rest).
Proof.
  intros a w rest name Ha Hw. unfold codegen. cbn [flat_map substsOf]. rewrite insert_own by assumption. cbn [app].
  assert (E := C93_exact [Piece a [] (switchDirective name)] (w ++ [125] ++ rest)).
  unfold before, after in E. cbn [flat_map kept gone new ranges length] in E. rewrite !app_nil_r, Nat.add_0_l, <- ?app_assoc in E. apply E.
  destruct w; discriminate.
Qed.
Print Assumptions C93_own.

(** C93. When something else is before the brace in its line, the line is broken there; what follows is indented as
    the line was. *)
Theorem C93_inline : forall a i m e w rest name, fresh a -> blanks i -> blanks w -> oneLine (m ++ [e]) -> isWhite e = false ->
  (exists c r, m ++ [e] = c :: r /\ isWhite c = false) ->
  codegen (a ++ i ++ (m ++ [e]) ++ w ++ [125] ++ rest) [Switch (length (a ++ i ++ m ++ [e]) + length w) name] =
  Some (a ++ i ++ (m ++ [e]) ++ [10] ++ switchDirective name ++ i ++ w ++ [125] ++ rest).
Proof.
  intros a i m e w rest name Ha Hi Hw Ho He Hc. unfold codegen. cbn [flat_map substsOf]. rewrite insert_inline by assumption. rewrite app_nil_r.
  assert (E := C93_exact [Piece (a ++ i ++ m ++ [e]) [] ([10] ++ switchDirective name ++ i)] (w ++ [125] ++ rest)).
  unfold before, after in E. cbn [flat_map kept gone new ranges] in E. rewrite !app_nil_r, Nat.add_0_l, <- !app_assoc in E.
  rewrite <- !app_assoc. apply E. destruct w; discriminate.
Qed.
Print Assumptions C93_inline.
Example C93_inline_case : codegen (txt "x" ++ [10] ++ txt "  struct S { A a; };") [Switch 19 (txt "S.inl")] =
  Some (txt "x" ++ [10] ++ txt "  struct S { A a;" ++ [10] ++ txt "#include " ++ [34] ++ txt "codegen/S.inl" ++ [34] ++ txt " //@@ply" ++ [10] ++ txt "   };").
Proof. reflexivity. Qed.

(** C93. The directive of the last time is replaced by the one of this time, wherever its line started. *)
Theorem C93_replaced : forall a i old v w rest name, fresh a -> oneLine (i ++ [35] ++ old ++ txt "//@@ply" ++ v) -> blanks v -> blanks w ->
  let line := i ++ [35] ++ old ++ txt "//@@ply" ++ v ++ [10] in
  codegen (a ++ line ++ w ++ [125] ++ rest) [Include (length a + length i); Switch (length (a ++ line) + length w) name] =
  Some (a ++ switchDirective name ++ w ++ [125] ++ rest).
Proof.
  intros a i old v w rest name Ha Ho Hv Hw line. unfold codegen. cbn [flat_map substsOf]. rewrite app_nil_r.
  assert (Hf : fresh (a ++ line)). { right. exists (a ++ i ++ [35] ++ old ++ txt "//@@ply" ++ v). unfold line. now rewrite <- !app_assoc. }
  replace (onGotInclude (a ++ line ++ w ++ [125] ++ rest) (length a + length i)) with [Subst (length a) (length line) []].
  2: { symmetry. pose proof (include_subst a i ([35] ++ old ++ txt "//@@ply" ++ v) (w ++ [125] ++ rest) Ha Ho) as E.
       replace (([35] ++ old ++ txt "//@@ply" ++ v) ++ [10]) with ((35 :: old) ++ txt "//@@ply" ++ v ++ [10]) in E by (cbn [app]; now rewrite <- !app_assoc).
       rewrite marked_yes in E by exact Hv.
       replace (a ++ line ++ w ++ [125] ++ rest) with (a ++ i ++ ([35] ++ old ++ txt "//@@ply" ++ v) ++ 10 :: w ++ [125] ++ rest) by (unfold line; now rewrite <- !app_assoc).
       rewrite E. f_equal. f_equal. unfold line. rewrite !app_length. cbn [length]. lia. }
  replace (a ++ line ++ w ++ [125] ++ rest) with ((a ++ line) ++ w ++ [125] ++ rest) by now rewrite <- app_assoc.
  rewrite insert_own by assumption.
  assert (E := C93_exact [Piece a line []; Piece [] [] (switchDirective name)] (w ++ [125] ++ rest)).
  unfold before, after in E. cbn [flat_map kept gone new ranges length] in E. rewrite ?app_nil_r, ?app_nil_l, ?Nat.add_0_l, ?Nat.add_0_r, <- ?app_assoc in E.
  rewrite <- !app_assoc, app_length. apply E. destruct w; discriminate.
Qed.
Print Assumptions C93_replaced.

(** C93. So a second run changes nothing. *)
Theorem C93_again : forall a w rest name, fresh a -> blanks w -> oneLine name ->
  let src := a ++ switchDirective name ++ w ++ [125] ++ rest in
  codegen src [Include (length a); Switch (length (a ++ switchDirective name) + length w) name] = Some src.
Proof.
  intros a w rest name Ha Hw Hn src.
  assert (E : switchDirective name = [] ++ [35] ++ (txt "include " ++ [34] ++ txt "codegen/" ++ name ++ [34; 32]) ++ txt "//@@ply" ++ [] ++ [10]).
  { unfold switchDirective. change (txt "#include ") with ([35] ++ txt "include "). change (txt " //@@ply") with ([32] ++ txt "//@@ply").
    rewrite <- !app_assoc. reflexivity. }
  pose proof (C93_replaced a [] (txt "include " ++ [34] ++ txt "codegen/" ++ name ++ [34; 32]) [] w rest name Ha) as H.
  cbv zeta in H. rewrite <- E in H. cbn [length] in H. rewrite Nat.add_0_r in H. apply H; [|constructor|exact Hw].
  intros Hi. apply in_app_or in Hi. destruct Hi as [[]|Hi]. apply in_app_or in Hi. destruct Hi as [[Hi|[]]|Hi]; [discriminate|].
  rewrite <- !app_assoc in Hi.
  repeat (apply in_app_or in Hi; destruct Hi as [Hi|Hi];
    [first [exact (Hn Hi) | cbn in Hi; repeat (destruct Hi as [Hi|Hi]; [discriminate|]); exact Hi]|]).
  exact Hi.
Qed.
Print Assumptions C93_again.

(** C93. In a file with any number of switches, each with or without the directive of the last time, every switch has
    its directive afterwards, once, and nothing else has changed. *)
Theorem C93_many : forall ss rest, Forall segment_ok ss ->
  codegen (flat_map segText ss ++ rest) (founds 0 ss) = Some (flat_map segNew ss ++ rest).
Proof. exact many_ok. Qed.
Print Assumptions C93_many.
Example C93_many_case :
  let ss := [Segment (txt "struct A {" ++ [10]) None [] (txt "A.inl");
             Segment (txt ";" ++ [10] ++ txt "struct B {" ++ [10]) (Some ([32], txt "include <x> ", [13])) [32; 32] (txt "B.inl")] in
  Forall segment_ok ss /\ founds 0 ss = [Switch 11 (txt "A.inl"); Include 26; Switch 50 (txt "B.inl")].
Proof.
  split; [|reflexivity]. constructor; [|constructor; [|constructor]].
  - split; [exists (txt "struct A {"); reflexivity|split; [constructor|exact I]].
  - split; [exists (txt ";" ++ [10] ++ txt "struct B {"); reflexivity|]. split; [constructor; [now left|constructor; [now left|constructor]]|].
    split; [|constructor; [now right; right|constructor]]. intros H. cbn in H. repeat (destruct H as [H|H]; [discriminate|]). exact H.
Qed.

(** C93. And running the generator again on the result changes nothing, however many switches there are. *)
Theorem C93_stable : forall ss rest out, Forall segment_ok ss -> Forall (fun s => oneLine (genName s)) ss ->
  codegen (flat_map segText ss ++ rest) (founds 0 ss) = Some out ->
  out = flat_map segText (map next ss) ++ rest /\ codegen out (founds 0 (map next ss)) = Some out.
Proof.
  intros ss rest out Hs Hn H. rewrite C93_many in H by exact Hs. injection H as <-.
  assert (E : flat_map segText (map next ss) = flat_map segNew ss) by (clear; induction ss as [|s r IH]; [reflexivity|]; cbn [map flat_map]; now rewrite IH, next_text).
  assert (E2 : flat_map segNew (map next ss) = flat_map segNew ss) by (clear; induction ss as [|s r IH]; [reflexivity|]; cbn [map flat_map]; now rewrite IH, next_new).
  assert (Hok : Forall segment_ok (map next ss)).
  { clear - Hs Hn. induction Hs as [|s r Hs _ IH]; [constructor|]. inversion Hn; subst. cbn [map]. constructor; [now apply next_ok|now apply IH]. }
  split; [now rewrite E|]. rewrite <- E at 1. rewrite C93_many by exact Hok. now rewrite E2.
Qed.
Print Assumptions C93_stable.
