(* Proofs about generated files. *)
From Coq Require Import String.
From Verif Require Import Base Txt InlModel InlSpec.
Local Open Scope string_scope.
Local Open Scope list_scope.
Local Open Scope Z_scope.

Lemma textOf_app a b : textOf (a ++ b) = textOf a ++ textOf b.
Proof. unfold textOf. apply flat_map_app. Qed.
Lemma textOf_map {A} (f : A -> list Z) l : textOf (map f l) = flat_map (fun x => f x ++ [10]) l.
Proof. unfold textOf. induction l as [|x l IH]; [reflexivity|]. cbn [map flat_map]. now rewrite IH. Qed.
Lemma flat_ext {A} (f g : A -> list Z) l : (forall x, f x = g x) -> flat_map f l = flat_map g l.
Proof. intros H. induction l as [|x l IH]; [reflexivity|]. cbn [flat_map]. now rewrite H, IH. Qed.
Lemma call_text f x : call f x ++ [10] = f ++ txt "(" ++ x ++ txt ")" ++ nl.
Proof. unfold call. now rewrite <- !app_assoc. Qed.
Lemma textOf_cons l r : textOf (l :: r) = l ++ [10] ++ textOf r.
Proof. unfold textOf. cbn [flat_map]. now rewrite <- app_assoc. Qed.
Lemma textOf_calls f l : textOf (map (call f) l) = flat_map (fun m => f ++ txt "(" ++ m ++ txt ")" ++ nl) l.
Proof. rewrite textOf_map. apply flat_ext. intros x. apply call_text. Qed.

Lemma class_text c : writeClass c = textOf (lines (ofClass c)).
Proof.
  unfold writeClass, ofClass, lines. rewrite !textOf_app, textOf_calls. unfold textOf at 1 2. cbn [flat_map]. rewrite call_text, !app_nil_r, <- !app_assoc. reflexivity.
Qed.
Lemma switch_text s : writeSwitch s = textOf (lines (ofSwitch s)).
Proof.
  unfold writeSwitch, ofSwitch, lines. rewrite !textOf_app. rewrite textOf_map.
  rewrite (flat_ext (fun x => call (txt "SWITCH_TABLE_STATE") (sName s ++ txt ", " ++ x) ++ [10]) (fun st => txt "SWITCH_TABLE_STATE(" ++ sName s ++ txt ", " ++ st ++ txt ")" ++ nl)).
  2: { intros x. rewrite call_text, <- !app_assoc. reflexivity. }
  destruct (isReflected s).
  - rewrite !textOf_app, textOf_calls. unfold textOf. cbn [flat_map]. rewrite !call_text, !app_nil_r, <- !app_assoc. reflexivity.
  - unfold textOf. cbn [flat_map]. rewrite !call_text, !app_nil_r, <- !app_assoc. reflexivity.
Qed.

Lemma beq_spec : forall a b, bytes_eqb a b = true <-> a = b.
Proof.
  induction a as [|x a IH]; intros [|y b]; cbn [bytes_eqb]; try (split; [discriminate|congruence]); [split; reflexivity|].
  rewrite andb_true_iff, Z.eqb_eq, IH. split; [intros [-> ->]; reflexivity|]. intros H. injection H as -> ->. split; reflexivity.
Qed.
Lemma enumerators_text l is : ids l is -> writeEnumerators l = textOf (map (call (txt "PLY_ENUM_IDENTIFIER")) is).
Proof.
  rewrite textOf_calls. intros [l'|l' H].
  - induction l' as [|e r IH]; [reflexivity|]. cbn [app writeEnumerators flat_map]. rewrite <- IH.
    destruct (r ++ [txt "Count"]) as [|x q] eqn:E; [destruct r; discriminate|]. rewrite <- ?app_assoc. reflexivity.
  - induction l' as [|e r IH]; [reflexivity|]. cbn [writeEnumerators flat_map]. rewrite IH.
    2: { intros q E. apply (H (e :: q)). now rewrite E. }
    destruct r as [|x q]; [|rewrite <- ?app_assoc; reflexivity].
    destruct (bytes_eqb e (txt "Count")) eqn:E; [|rewrite <- ?app_assoc; reflexivity]. apply beq_spec in E. subst e. destruct (H []). reflexivity.
Qed.
Lemma enum_text e is : ids (enumerators e) is -> writeEnum e = textOf (lines (AnEnum (prefix e) (eName e) is)).
Proof.
  intros H. unfold writeEnum, lines. rewrite (enumerators_text _ _ H), !textOf_app. unfold textOf at 2 4. cbn [flat_map]. rewrite call_text, !app_nil_r, <- !app_assoc. reflexivity.
Qed.
Lemma ids_some l : exists is, ids l is.
Proof.
  destruct l as [|x l] using rev_ind; [exists []; apply ids_all; intros [|? ?]; discriminate|].
  destruct (bytes_eqb x (txt "Count")) eqn:E.
  - apply beq_spec in E. subst x. exists l. constructor.
  - exists (l ++ [x]). apply ids_all. intros l' H. apply app_inj_tail in H. destruct H as [_ ->].
    assert (bytes_eqb (txt "Count") (txt "Count") = true) by reflexivity. congruence.
Qed.

(** What a file holds. *)
Definition holds (files : list (list Z * list Z)) (p : list Z) : list Z :=
  flat_map (fun f => if bytes_eqb (fst f) p then snd f else []) files.
Lemma beq_refl a : bytes_eqb a a = true.
Proof. now apply beq_spec. Qed.
Lemma addTo_paths : forall fs p t q, In q (map fst (addTo fs p t)) <-> q = p \/ In q (map fst fs).
Proof.
  induction fs as [|(a, b) r IH]; intros p t q; cbn [addTo map fst In]; [intuition congruence|].
  destruct (bytes_eqb a p) eqn:E; cbn [map fst In].
  - apply beq_spec in E. subst. intuition congruence.
  - rewrite IH. intuition congruence.
Qed.
Lemma addTo_nodup : forall fs p t, NoDup (map fst fs) -> NoDup (map fst (addTo fs p t)).
Proof.
  induction fs as [|(a, b) r IH]; intros p t H; cbn [addTo map fst] in *; [constructor; [intros []|constructor]|].
  inversion H as [|? ? Hn Hr]; subst. destruct (bytes_eqb a p) eqn:E; cbn [map fst]; [constructor; assumption|].
  constructor; [|now apply IH]. rewrite addTo_paths. intros [->|Hi]; [rewrite beq_refl in E; discriminate|contradiction].
Qed.
Lemma holds_none : forall fs p, ~ In p (map fst fs) -> holds fs p = [].
Proof.
  induction fs as [|(a, b) r IH]; intros p H; [reflexivity|]. unfold holds in *. cbn [flat_map fst snd map In] in *.
  destruct (bytes_eqb a p) eqn:E; [apply beq_spec in E; tauto|]. apply IH. tauto.
Qed.
Lemma addTo_holds : forall fs p t q, NoDup (map fst fs) -> holds (addTo fs p t) q = holds fs q ++ (if bytes_eqb p q then t else []).
Proof.
  induction fs as [|(a, b) r IH]; intros p t q H; cbn [addTo].
  - unfold holds. cbn [flat_map fst snd]. now rewrite app_nil_r.
  - inversion H as [|? ? Hn Hr]; subst. destruct (bytes_eqb a p) eqn:E.
    + apply beq_spec in E. subst a. unfold holds. cbn [flat_map fst snd]. destruct (bytes_eqb p q) eqn:E2.
      * apply beq_spec in E2. subst q. fold (holds r p). rewrite holds_none by exact Hn. now rewrite !app_nil_r.
      * cbn [app]. now rewrite app_nil_r.
    + specialize (IH p t q Hr). unfold holds in *. cbn [flat_map fst snd]. now rewrite IH, app_assoc.
Qed.
Lemma fold_holds {A} (path : A -> list Z) (write : A -> list Z) : forall l fs q, NoDup (map fst fs) ->
  let fs' := fold_left (fun f x => addTo f (path x) (write x)) l fs in
  NoDup (map fst fs') /\ holds fs' q = holds fs q ++ flat_map write (filter (fun x => bytes_eqb (path x) q) l) /\
  (forall p, In p (map fst fs') <-> In p (map fst fs) \/ In p (map path l)).
Proof.
  induction l as [|x l IH]; intros fs q H; cbn [fold_left filter flat_map map In]; [split; [exact H|split; [now rewrite app_nil_r|tauto]]|].
  destruct (IH (addTo fs (path x) (write x)) q (addTo_nodup _ _ _ H)) as (H1 & H2 & H3). split; [exact H1|]. split.
  - rewrite H2, addTo_holds, <- app_assoc by exact H. destruct (bytes_eqb (path x) q); reflexivity.
  - intros p. rewrite H3, addTo_paths. intuition congruence.
Qed.
Lemma holds_in : forall fs p t, NoDup (map fst fs) -> In (p, t) fs -> holds fs p = t.
Proof.
  induction fs as [|(a, b) r IH]; intros p t H Hi; [destruct Hi|]. inversion H as [|? ? Hn Hr]; subst. unfold holds in *. cbn [flat_map fst snd].
  destruct Hi as [E|Hi].
  - injection E as -> ->. rewrite beq_refl. fold (holds r p). rewrite holds_none by exact Hn. apply app_nil_r.
  - destruct (bytes_eqb a p) eqn:E; [|now apply IH]. apply beq_spec in E. subst a. destruct Hn. now apply in_map with (f := fst) in Hi.
Qed.

(** Texts say what their lines are. *)
Lemma textOf_inj : forall a b, Forall (fun l => ~ In 10 l) a -> Forall (fun l => ~ In 10 l) b -> textOf a = textOf b -> a = b.
Proof.
  assert (H : forall (x y r s : list Z), ~ In 10 x -> ~ In 10 y -> x ++ 10 :: r = y ++ 10 :: s -> x = y /\ r = s).
  { induction x as [|c x IH]; intros [|d y] r s Hx Hy E; cbn [app] in E.
    - injection E as E. split; [reflexivity|exact E].
    - injection E as E1 E2. destruct Hy. now left.
    - injection E as E1 E2. destruct Hx. now left.
    - injection E as E1 E2. destruct (IH y r s) as [-> ->]; [intros Hi; apply Hx; now right|intros Hi; apply Hy; now right|exact E2|]. subst. split; reflexivity. }
  induction a as [|x a IH]; intros [|y b] Ha Hb E; [reflexivity| | |].
  - rewrite textOf_cons in E. destruct y; discriminate.
  - rewrite textOf_cons in E. destruct x; discriminate.
  - rewrite !textOf_cons in E. inversion Ha; inversion Hb; subst. cbn [app] in E. apply H in E; [|assumption|assumption]. destruct E as [-> E]. f_equal. now apply IH.
Qed.
Lemma call_inj f x y : call f x = call f y -> x = y.
Proof. unfold call. intros H. apply app_inv_head, app_inv_head, app_inv_tail in H. exact H. Qed.
Lemma pair_inj : forall a b x y : list Z, ~ In 44 a -> ~ In 44 b -> a ++ txt ", " ++ x = b ++ txt ", " ++ y -> a = b /\ x = y.
Proof.
  induction a as [|c a IH]; intros [|d b] x y Ha Hb E; cbn [app] in E.
  - injection E as E. split; [reflexivity|exact E].
  - injection E as E1 E2. destruct Hb. now left.
  - injection E as E1 E2. destruct Ha. now left.
  - injection E as E1 E2. destruct (IH b x y) as [-> ->]; [intros Hi; apply Ha; now right|intros Hi; apply Hb; now right|exact E2|]. subst. split; reflexivity.
Qed.
Lemma run_inj {A} (f : A -> list Z) (e : list Z) : (forall x y, f x = f y -> x = y) -> (forall x, f x <> e) ->
  forall l m r s, map f l ++ e :: r = map f m ++ e :: s -> l = m /\ r = s.
Proof.
  intros Hi He. induction l as [|x l IH]; intros [|y m] r s E; cbn [map app] in E.
  - injection E as E. split; [reflexivity|exact E].
  - injection E as E _. destruct (He y). congruence.
  - injection E as E _. destruct (He x). congruence.
  - injection E as E1 E2. apply Hi in E1. apply IH in E2. destruct E2 as [-> ->]. subst. split; reflexivity.
Qed.
Lemma first_line t : exists l r, lines t = l :: r /\ (forall n, l <> call (txt "PLY_SWITCH_BEGIN") n).
Proof. destruct t; (eexists; eexists; split; [reflexivity|]; intros q; discriminate). Qed.
Lemma not_begin n r ts : call (txt "PLY_SWITCH_BEGIN") n :: r = flat_map lines ts -> False.
Proof.
  destruct ts as [|t ts]; cbn [flat_map]; intros H; [discriminate|]. destruct (first_line t) as (l & q & E & Hn). rewrite E in H. cbn [app] in H.
  injection H as H _. now apply (Hn n).
Qed.
Lemma lines_inj : forall a b, Forall thing_ok a -> Forall thing_ok b -> flat_map lines a = flat_map lines b -> a = b.
Proof.
  induction a as [|x a IH]; intros [|y b] Ha Hb E; [reflexivity| | |].
  - cbn [flat_map] in E. destruct (first_line y) as (l & r & H & _). rewrite H in E. discriminate.
  - cbn [flat_map] in E. destruct (first_line x) as (l & r & H & _). rewrite H in E. discriminate.
  - inversion Ha as [|? ? Hx Ha']; inversion Hb as [|? ? Hy Hb']; subst. cbn [flat_map] in E.
    destruct x as [n ms|p n is|n ss r]; destruct y as [n' ms'|p' n' is'|n' ss' r']; cbn [lines] in E; try discriminate;
      rewrite <- !app_assoc in E; cbn [app] in E; injection E as E1 E2.
    + apply app_inv_tail in E1. apply run_inj in E2; [|intros u v; apply call_inj|intros u; discriminate].
      destruct E2 as [-> E2]. injection E2 as E2. subst. f_equal. now apply IH.
    + apply app_inv_tail in E1. apply pair_inj in E1; [|apply Hx|apply Hy]. destruct E1 as [-> ->].
      apply run_inj in E2; [|intros u v; apply call_inj|intros u; discriminate].
      destruct E2 as [-> E2]. injection E2 as E2. f_equal. now apply IH.
    + apply app_inv_tail in E1. subst n'.
      apply (run_inj (fun s => call (txt "SWITCH_TABLE_STATE") (n ++ txt ", " ++ s))) in E2; [| |intros u; discriminate].
      2: { intros u v H. apply call_inj in H. apply app_inv_head, app_inv_head in H. exact H. }
      destruct E2 as [-> E2]. injection E2 as E2.
      destruct r; destruct r'; cbn [app] in E2.
      * injection E2 as E2. rewrite <- !app_assoc in E2. apply app_inv_head in E2. cbn [app] in E2. injection E2 as E2. f_equal. now apply IH.
      * exfalso. eapply not_begin. exact E2.
      * exfalso. eapply not_begin. symmetry. exact E2.
      * f_equal. now apply IH.
Qed.
Lemma call_line f x : ~ In 10 f -> ~ In 10 x -> ~ In 10 (call f x).
Proof. intros Hf Hx H. unfold call in H. apply in_app_or in H. destruct H as [H|H]; [auto|]. apply in_app_or in H. destruct H as [[H|[]]|H]; [discriminate|]. apply in_app_or in H. destruct H as [H|[H|[]]]; [auto|discriminate]. Qed.
Lemma lit s : existsb (Z.eqb 10) s = false -> ~ In 10 s.
Proof. intros H Hi. assert (existsb (Z.eqb 10) s = true); [|congruence]. apply existsb_exists. exists 10. split; [exact Hi|reflexivity]. Qed.
Lemma calls_lines f l : ~ In 10 f -> Forall name_ok l -> Forall (fun x => ~ In 10 x) (map (call f) l).
Proof. intros Hf H. induction H as [|x l Hx _ IH]; cbn [map]; constructor; [apply call_line; [exact Hf|apply Hx]|exact IH]. Qed.
Lemma pair_line a b : ~ In 10 a -> ~ In 10 b -> ~ In 10 (a ++ txt ", " ++ b).
Proof. intros Ha Hb H. apply in_app_or in H. destruct H as [H|H]; [auto|]. apply in_app_or in H. destruct H as [[H|[H|[]]]|H]; [discriminate|discriminate|auto]. Qed.
Lemma lines_line t : thing_ok t -> Forall (fun l => ~ In 10 l) (lines t).
Proof.
  assert (H2 : forall l, ~ In 10 l -> Forall (fun l => ~ In 10 l) [l; []]) by (intros l H; constructor; [exact H|constructor; [intros []|constructor]]).
  assert (H1 : forall l, ~ In 10 l -> Forall (fun l => ~ In 10 l) [l]) by (intros l H; constructor; [exact H|constructor]).
  destruct t as [n ms|p n is|n ss r]; cbn [lines thing_ok].
  - intros [Hn Hm]. apply Forall_app. split; [apply H1, call_line; [now apply lit|apply Hn]|]. apply Forall_app. split; [apply calls_lines; [now apply lit|exact Hm]|apply H2; now apply lit].
  - intros (Hp & Hn & Hm). apply Forall_app. split; [apply H1, call_line; [now apply lit|apply pair_line; [apply Hp|apply Hn]]|].
    apply Forall_app. split; [apply calls_lines; [now apply lit|exact Hm]|apply H2; now apply lit].
  - intros [Hn Hm]. apply Forall_app. split; [apply H1, call_line; [now apply lit|apply Hn]|]. apply Forall_app. split.
    + clear - Hn Hm. induction Hm as [|x l Hx _ IH]; cbn [map]; constructor; [apply call_line; [now apply lit|apply pair_line; [apply Hn|apply Hx]]|exact IH].
    + apply (Forall_app _ [_; _]). split; [apply H2, call_line; [now apply lit|apply Hn]|]. destruct r; [|constructor].
      apply Forall_app. split; [apply H1, call_line; [now apply lit|apply Hn]|]. apply Forall_app. split; [apply calls_lines; [now apply lit|exact Hm]|apply H2; now apply lit].
Qed.
Lemma things_inj a b : Forall thing_ok a -> Forall thing_ok b -> flat_map (fun t => textOf (lines t)) a = flat_map (fun t => textOf (lines t)) b -> a = b.
Proof.
  assert (E : forall l, flat_map (fun t => textOf (lines t)) l = textOf (flat_map lines l)).
  { induction l as [|x l IH]; [reflexivity|]. cbn [flat_map]. now rewrite textOf_app, IH. }
  assert (F : forall l, Forall thing_ok l -> Forall (fun l => ~ In 10 l) (flat_map lines l)).
  { induction 1 as [|x l Hx _ IH]; cbn [flat_map]; [constructor|]. apply Forall_app. split; [now apply lines_line|exact IH]. }
  intros Ha Hb H. rewrite !E in H. apply textOf_inj in H; [|now apply F|now apply F]. now apply lines_inj.
Qed.
