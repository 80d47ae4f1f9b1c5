(* Proofs about files with many switches. *)
From Coq Require Import String.
From Verif Require Import Base Txt SubstModel SubstSpec SubstProofs.
Local Open Scope string_scope.
Local Open Scope list_scope.
Local Open Scope Z_scope.
Local Notation length := List.length.

Fixpoint segPieces (k : list Z) (ss : list segment) : list piece * list Z :=
  match ss with
  | [] => ([], k)
  | s :: r =>
    let '(ps, t) := segPieces (pad s ++ [125]) r in
    (match old s with
     | Some _ => [Piece (k ++ lead s) (oldText s) []; Piece [] [] (switchDirective (genName s))]
     | None => [Piece (k ++ lead s) [] (switchDirective (genName s))]
     end ++ ps, t)
  end.
Lemma segs_before : forall ss k, before (fst (segPieces k ss)) (snd (segPieces k ss)) = k ++ flat_map segText ss.
Proof.
  induction ss as [|s r IH]; intros k; [cbn; now rewrite app_nil_r|]. cbn [segPieces]. specialize (IH (pad s ++ [125])).
  destruct (segPieces (pad s ++ [125]) r) as [ps t]. cbn [fst snd] in *. unfold before in *. cbn [flat_map]. unfold segText at 1.
  rewrite flat_map_app, <- app_assoc, IH. unfold oldText. destruct (old s) as [((i, o), v)|]; cbn [flat_map kept gone]; unfold oldText; rewrite <- !app_assoc; cbn [app]; reflexivity.
Qed.
Lemma segs_after : forall ss k, after (fst (segPieces k ss)) (snd (segPieces k ss)) = k ++ flat_map segNew ss.
Proof.
  induction ss as [|s r IH]; intros k; [cbn; now rewrite app_nil_r|]. cbn [segPieces]. specialize (IH (pad s ++ [125])).
  destruct (segPieces (pad s ++ [125]) r) as [ps t]. cbn [fst snd] in *. unfold after in *. cbn [flat_map]. unfold segNew at 1.
  rewrite flat_map_app, <- app_assoc, IH. destruct (old s) as [((i, o), v)|]; cbn [flat_map kept new]; rewrite <- !app_assoc; cbn [app]; reflexivity.
Qed.
Lemma old_include a i o v rest : fresh a -> oneLine (i ++ [35] ++ o ++ txt "//@@ply" ++ v) -> blanks v ->
  let line := i ++ [35] ++ o ++ txt "//@@ply" ++ v ++ [10] in
  onGotInclude (a ++ line ++ rest) (length a + length i) = [Subst (length a) (length line) []].
Proof.
  intros Ha Ho Hv line. pose proof (include_subst a i ([35] ++ o ++ txt "//@@ply" ++ v) rest Ha Ho) as E.
  replace (([35] ++ o ++ txt "//@@ply" ++ v) ++ [10]) with ((35 :: o) ++ txt "//@@ply" ++ v ++ [10]) in E by (cbn [app]; now rewrite <- !app_assoc).
  rewrite marked_yes in E by exact Hv.
  replace (a ++ line ++ rest) with (a ++ i ++ ([35] ++ o ++ txt "//@@ply" ++ v) ++ 10 :: rest) by (unfold line; now rewrite <- !app_assoc).
  rewrite E. f_equal. f_equal. unfold line. rewrite !app_length. cbn [length]. lia.
Qed.
Lemma segs_ranges : forall ss a k tail, Forall segment_ok ss ->
  flat_map (substsOf (a ++ k ++ flat_map segText ss ++ tail)) (founds (length (a ++ k)) ss) = ranges (length a) (fst (segPieces k ss)).
Proof.
  induction ss as [|s r IH]; intros a k tail Hs; [reflexivity|]. inversion Hs as [|? ? (Hb & Hw & Ho) Hr]; subst.
  cbn [founds]. rewrite !flat_map_app.
  assert (Hf1 : fresh (a ++ k ++ lead s)). { destruct Hb as [b ->]. right. exists (a ++ k ++ b). now rewrite <- !app_assoc. }
  assert (Hf2 : fresh (a ++ k ++ lead s ++ oldText s)).
  { unfold oldText. destruct (old s) as [((i, o), v)|]; [|now rewrite app_nil_r].
    right. exists (a ++ k ++ lead s ++ i ++ [35] ++ o ++ txt "//@@ply" ++ v). now rewrite <- !app_assoc. }
  set (src := a ++ k ++ flat_map segText (s :: r) ++ tail).
  assert (E2 : src = (a ++ k ++ lead s ++ oldText s) ++ pad s ++ ([125] ++ flat_map segText r ++ tail)).
  { unfold src. cbn [flat_map]. unfold segText at 1. now rewrite <- !app_assoc. }
  assert (H2 : flat_map (substsOf src) [Switch (length (a ++ k) + length (lead s ++ oldText s) + length (pad s)) (genName s)] =
     [Subst (length (a ++ k ++ lead s ++ oldText s)) 0 (switchDirective (genName s))]).
  { cbn [flat_map substsOf]. rewrite app_nil_r. f_equal. rewrite E2.
    replace (length (a ++ k) + length (lead s ++ oldText s))%nat with (length (a ++ k ++ lead s ++ oldText s)) by (rewrite !app_length; lia).
    now apply insert_own. }
  assert (H3 : flat_map (substsOf src) (founds (length (a ++ k) + length (segText s)) r) =
     ranges (length (a ++ k ++ lead s ++ oldText s)) (fst (segPieces (pad s ++ [125]) r))).
  { rewrite <- (IH (a ++ k ++ lead s ++ oldText s) (pad s ++ [125]) tail Hr). f_equal.
    - rewrite E2. f_equal. now rewrite <- !app_assoc.
    - f_equal. unfold segText. rewrite !app_length. cbn [length]. lia. }
  rewrite H2, H3. cbn [segPieces]. destruct (segPieces (pad s ++ [125]) r) as [ps t]. cbn [fst].
  destruct (old s) as [((i, o), v)|] eqn:Eo.
  - assert (H1 : flat_map (substsOf src) [Include (length (a ++ k) + length (lead s) + length i)] = [Subst (length (a ++ k ++ lead s)) (length (oldText s)) []]).
    { cbn [flat_map substsOf]. rewrite app_nil_r.
      assert (E1 : src = (a ++ k ++ lead s) ++ oldText s ++ (pad s ++ [125] ++ flat_map segText r ++ tail)) by (rewrite E2; now rewrite <- !app_assoc).
      rewrite E1. unfold oldText. rewrite Eo.
      replace (length (a ++ k) + length (lead s))%nat with (length (a ++ k ++ lead s)) by (rewrite !app_length; lia).
      apply old_include; [exact Hf1|apply Ho|apply Ho]. }
    rewrite H1. cbn [app ranges kept gone new length]. f_equal; [f_equal; rewrite !app_length; lia|]. f_equal; [f_equal; rewrite !app_length; lia|].
    f_equal. rewrite !app_length. lia.
  - assert (Hn : oldText s = []) by (unfold oldText; now rewrite Eo). rewrite Hn. cbn [flat_map app ranges kept gone new length]. rewrite app_nil_r.
    f_equal; [f_equal; rewrite !app_length; lia|]. f_equal. rewrite !app_length. lia.
Qed.
Lemma segPieces_rest : forall ss k, (ss <> [] \/ k <> []) -> snd (segPieces k ss) <> [].
Proof.
  induction ss as [|s r IH]; intros k H; cbn [segPieces]; [destruct H as [H|H]; [congruence|exact H]|].
  specialize (IH (pad s ++ [125])). destruct (segPieces (pad s ++ [125]) r) as [ps t]. cbn [snd] in *. apply IH. right. destruct (pad s); discriminate.
Qed.
Lemma many_ok ss rest : Forall segment_ok ss -> codegen (flat_map segText ss ++ rest) (founds 0 ss) = Some (flat_map segNew ss ++ rest).
Proof.
  intros Hs. destruct ss as [|s r].
  - cbn [flat_map founds app]. unfold codegen, performSubsts. cbn [flat_map substLoop]. f_equal. exact (view_rest [] rest).
  - unfold codegen, performSubsts. pose proof (segs_ranges (s :: r) [] [] rest Hs) as H. cbn [app length] in H. rewrite H.
    pose proof (segs_before (s :: r) []) as Hb. pose proof (segs_after (s :: r) []) as Ha. cbn [app] in Hb, Ha.
    rewrite <- Hb, <- Ha, before_app, after_app. apply (loop_exact _ [] _).
    assert (Hn : snd (segPieces [] (s :: r)) <> []) by (apply segPieces_rest; left; discriminate). destruct (snd (segPieces [] (s :: r))); [congruence|discriminate].
Qed.
Lemma next_text s : segText (next s) = segNew s.
Proof.
  unfold segText, segNew, oldText, next. cbn [lead old pad genName]. f_equal. rewrite app_assoc. rewrite (app_assoc _ _ [125]). f_equal. f_equal.
  unfold switchDirective. change (txt "#include ") with ([35] ++ txt "include "). change (txt " //@@ply") with ([32] ++ txt "//@@ply").
  rewrite <- !app_assoc. reflexivity.
Qed.
Lemma next_new s : segNew (next s) = segNew s.
Proof. reflexivity. Qed.
Lemma next_ok s : oneLine (genName s) -> segment_ok s -> segment_ok (next s).
Proof.
  intros Hn (Hb & Hw & _). split; [exact Hb|split; [exact Hw|]]. cbn [old next]. split; [|constructor].
  intros Hi. apply in_app_or in Hi. destruct Hi as [[]|Hi]. apply in_app_or in Hi. destruct Hi as [[Hi|[]]|Hi]; [discriminate|].
  rewrite <- !app_assoc in Hi.
  repeat (apply in_app_or in Hi; destruct Hi as [Hi|Hi];
    [first [exact (Hn Hi) | cbn in Hi; repeat (destruct Hi as [Hi|Hi]; [discriminate|]); exact Hi]|]).
  exact Hi.
Qed.
