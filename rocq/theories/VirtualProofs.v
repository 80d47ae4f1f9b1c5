(* The virtual file system: paths stay below its root. *)
From Coq Require Import Lia ZifyBool ZifyNat.
From Verif Require Import Base ListUpd StringViewProofs PathProofs FsModel WalkSpec WalkProofs.

Lemma stays_more ns : forall d, stays d ns = true -> stays (S d) ns = true.
Proof.
  induction ns as [|n ns IH]; intros d; cbn [stays]; [reflexivity|]. destruct (list_eq_dec Z.eq_dec n [dot]); [apply IH|]. destruct (list_eq_dec Z.eq_dec n [dot; dot]); [destruct d; [discriminate|apply IH]|apply IH].
Qed.
Lemma stays_any ns d : stays 0 ns = true -> stays d ns = true.
Proof. intros H. induction d as [|d IH]; [exact H|apply stays_more, IH]. Qed.
Lemma stays_app a b : forall d, stays d a = true -> stays 0 b = true -> stays d (a ++ b) = true.
Proof.
  induction a as [|n a IH]; intros d Ha Hb; cbn [app stays] in *; [apply stays_any, Hb|]. destruct (list_eq_dec Z.eq_dec n [dot]); [apply IH; assumption|]. destruct (list_eq_dec Z.eq_dec n [dot; dot]); [destruct d; [discriminate|apply IH; assumption]|apply IH; assumption].
Qed.
Lemma go_inside ns : forall x d, stays (length x) ns = true -> fold_left go ns (x ++ d) = fold_left go ns x ++ d.
Proof.
  induction ns as [|n ns IH]; intros x d H; cbn [fold_left stays] in *; [reflexivity|]. unfold go at 2 4. destruct (list_eq_dec Z.eq_dec n [dot]); [apply IH, H|]. destruct (list_eq_dec Z.eq_dec n [dot; dot]).
  - destruct x as [|y x]; [discriminate|]. cbn [app tl]. apply IH, H.
  - exact (IH (n :: x) d H).
Qed.
Lemma pieces_map sep f p : (forall c, sep (f c) = sep c) -> (forall c, sep c = false -> f c = c) -> pieces sep (map f p) = pieces sep p.
Proof.
  intros H1 H2. induction p as [|c p IH]; cbn [map pieces]; [reflexivity|]. rewrite H1, IH. destruct (sep c) eqn:E; [reflexivity|]. rewrite H2 by exact E. reflexivity.
Qed.
Lemma from_target w p : anchorOf w (from false w p) = anchorOf w p /\ namesOf w (from false w p) = namesOf w p /\ zlen (from false w p) = zlen p.
Proof.
  unfold from. destruct w; cbn [Bool.eqb]; [|auto]. set (f := fun c => if isSepByte true c then sepByte false else c).
  assert (H1 : forall c, sepOf true (f c) = sepOf true c).
  { intros c. unfold f. change (isSepByte true c) with ((c =? slash) || (c =? backslash)). unfold sepOf. destruct ((c =? slash) || (c =? backslash)) eqn:E; [reflexivity|exact E]. }
  assert (H2 : forall c, sepOf true c = false -> f c = c).
  { intros c E. unfold f. change (isSepByte true c) with (sepOf true c). rewrite E. reflexivity. }
  assert (H3 : forall c, letter (f c) = letter c).
  { intros c. destruct (sepOf true c) eqn:E; [|rewrite H2 by exact E; reflexivity]. pose proof (H1 c) as X. rewrite E in X. unfold sepOf, letter, slash, backslash in *. lia. }
  assert (H4 : forall c, (f c =? colon) = (c =? colon)).
  { intros c. destruct (sepOf true c) eqn:E; [|rewrite H2 by exact E; reflexivity]. pose proof (H1 c) as X. rewrite E in X. unfold sepOf, colon, slash, backslash in *. lia. }
  assert (A : anchorOf true (map f p) = anchorOf true p).
  { unfold anchorOf. destruct p as [|d [|c r]]; cbn [map]; [reflexivity|rewrite H1; reflexivity|]. rewrite H3, H4. destruct (letter d && (c =? colon)) eqn:E.
    - assert (Hd : f d = d) by (apply H2; unfold sepOf, letter, slash, backslash in *; lia). rewrite Hd. destruct r as [|x r]; cbn [map]; [reflexivity|]. rewrite H1. reflexivity.
    - rewrite H1. reflexivity. }
  split; [exact A|]. split; [|unfold zlen; rewrite map_length; reflexivity]. unfold namesOf. rewrite A. unfold names.
  destruct (anchorOf true p); rewrite ?skipn_map, pieces_map by assumption; reflexivity.
Qed.
Theorem virtual_inside w root p : sound w root = true -> full w root = true -> stays 0 (namesOf w root) = true -> plain w p = true -> noDrives w p = true -> zlen p < 2 ^ 31 -> stays 0 (namesOf w p) = true ->
  exists q, convertToTargetPath w root p = Some q /\ full w q = true /\
    forall cwd at_, resolve w cwd at_ q = (fst (resolve w cwd at_ root), snd (resolve w cwd (0, []) p) ++ snd (resolve w cwd at_ root)).
Proof.
  intros S F St Pl Nd Hp Stp. destruct (from_target w p) as (A & N & L). set (p' := from false w p) in *.
  assert (Pl' : plain w p' = true) by (unfold plain in *; rewrite A; exact Pl). assert (F' : full w p' = false) by (unfold full, plain in *; destruct (anchorOf w p'); try discriminate; reflexivity).
  assert (S' : sound w p' = true) by (unfold sound; rewrite Pl', F', L; unfold noDrives in *; rewrite N, Nd; cbn; lia).
  assert (Ab : isAbsolute w p = false) by (rewrite full_abs; unfold full, plain in *; destruct (anchorOf w p); try discriminate; reflexivity).
  destruct (join_meaning_full w [root; p'] ltac:(discriminate)) as (q & Eq & Fq & Me).
  { cbn [forallb]. rewrite S, S'. reflexivity. }
  { cbn [route]. rewrite F, F'. cbn [fst snd]. rewrite N. apply stays_app; assumption. }
  exists q. unfold convertToTargetPath. rewrite Ab. split; [exact Eq|]. split; [rewrite Fq; cbn [existsb]; rewrite F; reflexivity|]. intros cwd at_. rewrite Me. cbn [fold_left]. set (r := resolve w cwd at_ root). unfold resolve. unfold plain in Pl, Pl'. destruct (anchorOf w p'); try discriminate. destruct (anchorOf w p); try discriminate. cbn [fst snd]. rewrite N. f_equal. exact (go_inside _ [] (snd r) Stp).
Qed.
(** Of two roots neither of which is inside the other, no path below the one designates anything below the other. *)
Theorem virtual_apart w r1 r2 p1 p2 q1 q2 cwd at_ :
  sound w r1 = true -> full w r1 = true -> stays 0 (namesOf w r1) = true -> sound w r2 = true -> full w r2 = true -> stays 0 (namesOf w r2) = true ->
  plain w p1 = true -> noDrives w p1 = true -> zlen p1 < 2 ^ 31 -> stays 0 (namesOf w p1) = true -> plain w p2 = true -> noDrives w p2 = true -> zlen p2 < 2 ^ 31 -> stays 0 (namesOf w p2) = true ->
  convertToTargetPath w r1 p1 = Some q1 -> convertToTargetPath w r2 p2 = Some q2 ->
  ~ below (snd (resolve w cwd at_ r1)) (snd (resolve w cwd at_ r2)) -> ~ below (snd (resolve w cwd at_ r2)) (snd (resolve w cwd at_ r1)) -> resolve w cwd at_ q1 <> resolve w cwd at_ q2.
Proof.
  intros S1 F1 T1 S2 F2 T2 A1 B1 C1 D1 A2 B2 C2 D2 E1 E2 N1 N2 E. destruct (virtual_inside w r1 p1 S1 F1 T1 A1 B1 C1 D1) as (q1' & X1 & _ & Y1). destruct (virtual_inside w r2 p2 S2 F2 T2 A2 B2 C2 D2) as (q2' & X2 & _ & Y2).
  assert (q1' = q1) by congruence. assert (q2' = q2) by congruence. subst. rewrite Y1, Y2 in E. injection E as _ E. unfold below in *.
  revert E. generalize (snd (resolve w cwd (0, []) p1)), (snd (resolve w cwd (0, []) p2)). intros a b E. revert N1 N2 E. generalize (snd (resolve w cwd at_ r1)), (snd (resolve w cwd at_ r2)). intros l m N1 N2. revert b. induction a as [|x a IH]; intros [|y b] E; cbn [app] in E.
  - apply N1. exists []. rewrite E. reflexivity.
  - apply N2. exists (y :: b). exact E.
  - apply N1. exists (x :: a). symmetry. exact E.
  - injection E as _ E. exact (IH b E).
Qed.
