(* A written project is read by CMake as its commands. *)
From Coq Require Import Lia ZifyBool ZifyNat String.
From Verif Require Import Txt.
From Verif Require Export CMakeSpec.
From Verif Require Import EscapeProofs StringViewProofs.
Local Open Scope string_scope.
Local Open Scope list_scope.
Local Open Scope Z_scope.
Local Notation length := List.length.
Local Notation "'do' x <- e ; f" := (match e with Some x => f | None => None end) (at level 200, x pattern, e at level 100, f at level 200).

(** ** Running the reader *)
Definition reads (s : list command * place) (text : list Z) (s' : list command * place) : Prop := run (Some s) text = Some s'.
Lemma reads_app s a s1 b s2 : reads s a s1 -> reads s1 b s2 -> reads s (a ++ b) s2.
Proof. unfold reads, run. intros A B. rewrite fold_left_app, A. exact B. Qed.
Lemma reads_nil s : reads s [] s.
Proof. reflexivity. Qed.
Lemma reads_cons s c s1 b s2 : step s c = Some s1 -> reads s1 b s2 -> reads s (c :: b) s2.
Proof. intros A B. unfold reads, run in *. cbn [fold_left]. rewrite A. exact B. Qed.
Lemma reads_eq s a s1 s2 : reads s a s1 -> s1 = s2 -> reads s a s2.
Proof. congruence. Qed.

Definition wordByte (c : Z) : Prop := inVar c = true.
Lemma safe_words s : safeName s -> Forall wordByte s.
Proof. intros [_ H]. eapply Forall_impl; [|exact H]. intros c [K _]. exact K. Qed.
Ltac bytetests := unfold wordByte, inName, startsName, inVar, isBlank, isLetter, isNumeral in *;
  repeat match goal with |- context [if ?b then _ else _] => let E := fresh "E" in destruct b eqn:E; [try lia|] end; try lia; try reflexivity.
Lemma bareStep_word cs n l ps c : wordByte c -> bareStep cs n l ps c = Some (cs, InBare n l (ps ++ [Byte c])).
Proof. intros H. unfold bareStep. bytetests. Qed.
Lemma reads_word cs n l s : forall ps, Forall wordByte s -> reads (cs, InBare n l ps) s (cs, InBare n l (ps ++ bytes s)).
Proof.
  induction s as [|c s IH]; intros ps H; [cbn; rewrite app_nil_r; apply reads_nil|]. inversion H; subst.
  eapply reads_cons; [apply bareStep_word; assumption|]. eapply reads_eq; [apply IH; assumption|]. cbn [bytes map]. rewrite <- app_assoc. reflexivity.
Qed.
Lemma reads_name cs n l s : s <> [] -> Forall wordByte s -> reads (cs, Args n l true) s (cs, InBare n l (bytes s)).
Proof.
  intros N H. destruct s as [|c s]; [contradiction|]. inversion H as [|? ? K]; subst. eapply reads_cons with (s1 := (cs, InBare n l [Byte c])).
  - cbn [step]. cbn [negb]. bytetests.
  - eapply reads_eq; [apply reads_word; assumption|]. reflexivity.
Qed.
Lemma reads_var cs n l ps s : forall x, Forall wordByte s -> reads (cs, BVar n l ps x) s (cs, BVar n l ps (x ++ s)).
Proof.
  induction s as [|c s IH]; intros x H; [rewrite app_nil_r; apply reads_nil|]. inversion H; subst.
  eapply reads_cons with (s1 := (cs, BVar n l ps (x ++ [c]))).
  - cbn [step]. assert (K : inVar c = true) by assumption. rewrite K. destruct (c =? 125) eqn:E; [unfold inVar, isLetter, isNumeral in K; lia|reflexivity].
  - eapply reads_eq; [apply IH; assumption|]. rewrite <- app_assoc. reflexivity.
Qed.
Lemma reads_plain cs n l s : forall ps, plain s -> reads (cs, InQuoted n l ps) s (cs, InQuoted n l (ps ++ bytes s)).
Proof.
  induction s as [|c s IH]; intros ps H; [cbn; rewrite app_nil_r; apply reads_nil|]. inversion H; subst.
  eapply reads_cons with (s1 := (cs, InQuoted n l (ps ++ [Byte c]))).
  - cbn [step]. unfold quotedStep. bytetests.
  - eapply reads_eq; [apply IH; assumption|]. cbn [bytes map]. rewrite <- app_assoc. reflexivity.
Qed.

(** ** Escaped text *)
Definition escByte (b : Z) : list Z := esc_point b [b].
Lemma escapable_bytes s : escapable s -> bytes_ok s.
Proof. intros [H _]. eapply Forall_impl; [|exact H]. intros c K. cbn in K. unfold is_byte. lia. Qed.
Lemma escaped_flat s : bytes_ok s -> no_overlong_ascii s -> escapedString s 0 = flat_map escByte s.
Proof.
  intros A B. unfold escapedString. rewrite point_loop_bytewise; auto.
  intros p src Hp. unfold esc_point.
  repeat match goal with |- context [?a =? ?b] => destruct (Z.eqb_spec a b); [lia|] end.
  replace (32 <=? p) with true by lia. reflexivity.
Qed.
Lemma no_overlong_cons c s : c < 128 -> no_overlong_ascii s -> no_overlong_ascii (c :: s).
Proof.
  intros C H pre l post p E F Hp. destruct pre as [|x pre]; cbn in E.
  - destruct F; cbn in E; try reflexivity; injection E; intros; subst; lia.
  - injection E as -> E. eapply H; eassumption.
Qed.
Lemma no_overlong_word a s : Forall (fun c => c < 128) a -> no_overlong_ascii s -> no_overlong_ascii (a ++ s).
Proof. intros F H. induction F; [exact H|]. cbn. apply no_overlong_cons; assumption. Qed.
Lemma reads_escByte cs n l ps c : (32 <= c < 256 \/ c = 9 \/ c = 10 \/ c = 13) -> c <> 36 ->
  reads (cs, InQuoted n l ps) (escByte c) (cs, InQuoted n l (ps ++ [Byte c])).
Proof.
  intros R D. unfold escByte, esc_point.
  destruct (Z.eqb_spec c 34) as [->|]; [reflexivity|]. destruct (Z.eqb_spec c 92) as [->|]; [reflexivity|].
  destruct (Z.eqb_spec c 13) as [->|]; [reflexivity|]. destruct (Z.eqb_spec c 10) as [->|]; [reflexivity|].
  destruct (Z.eqb_spec c 9) as [->|]; [reflexivity|]. replace (32 <=? c) with true by lia.
  eapply reads_cons; [|apply reads_nil]. cbn [step]. unfold quotedStep. bytetests.
Qed.
Lemma reads_escs cs n l s : forall ps, Forall (fun c => (32 <= c < 256 \/ c = 9 \/ c = 10 \/ c = 13) /\ c <> 36) s ->
  reads (cs, InQuoted n l ps) (flat_map escByte s) (cs, InQuoted n l (ps ++ bytes s)).
Proof.
  induction s as [|c s IH]; intros ps H; [cbn; rewrite app_nil_r; apply reads_nil|]. inversion H as [|? ? [K D]]; subst.
  cbn [flat_map]. eapply reads_app; [apply reads_escByte; assumption|]. eapply reads_eq; [apply IH; assumption|]. cbn [bytes map]. rewrite <- app_assoc. reflexivity.
Qed.
Lemma reads_escaped cs n l s ps : escapable s -> reads (cs, InQuoted n l ps) (escapedString s 0) (cs, InQuoted n l (ps ++ bytes s)).
Proof. intros H. rewrite escaped_flat; [apply reads_escs; apply H|apply escapable_bytes; exact H|apply H]. Qed.

(** ** Paths *)
Definition piecesOf (f : folder) (p : list Z) : list piece := match pathArg f p with Quoted ps | Bare ps => ps end.
Lemma pathArg_q f p : pathArg f p = Quoted (piecesOf f p).
Proof. reflexivity. Qed.
Lemma behind_some a : forall p r, behind a p = Some r <-> p = a ++ r.
Proof.
  induction a as [|x a IH]; intros [|y p] r; cbn; try (split; [intros [= <-]|intros <-]; reflexivity).
  - split; discriminate.
  - destruct (Z.eqb_spec x y) as [->|N]; [rewrite IH; split; [intros ->; reflexivity|intros [= ->]; reflexivity]|]. split; [discriminate|congruence].
Qed.
Lemma behind_starts a p : match behind a p with Some r => sv_startsWith p a = true /\ skipn (length a) p = r /\ p = a ++ r | None => sv_startsWith p a = false end.
Proof.
  destruct (behind a p) eqn:E.
  - apply behind_some in E. subst p. split; [apply sv_startsWith_iff; eauto|]. split; [|reflexivity]. rewrite skipn_app, skipn_all, Nat.sub_diag. reflexivity.
  - destruct (sv_startsWith p a) eqn:X; [|reflexivity]. apply sv_startsWith_iff in X. destruct X as [r X]. apply behind_some in X. congruence.
Qed.
Lemma filterPath_cases f p : normal p = true ->
  exists p', filterPath f p = Some p' /\
    ((p' = p /\ piecesOf f p = bytes p) \/
     (exists a r, p = a ++ r /\ p' = txt "${SRC_FOLDER}" ++ r /\ piecesOf f p = Var (txt "SRC_FOLDER") :: bytes r) \/
     (exists a r, p = a ++ r /\ p' = txt "${BUILD_FOLDER}" ++ r /\ piecesOf f p = Var (txt "BUILD_FOLDER") :: bytes r)).
Proof.
  intros N. unfold filterPath, piecesOf, pathArg. rewrite N. destruct (fBootstrap f); [|eauto].
  pose proof (behind_starts (fPrefix f) p) as A. destruct (behind (fPrefix f) p) as [r|].
  - destruct A as (-> & -> & A). eexists. split; [reflexivity|]. right. left. eauto.
  - rewrite A. pose proof (behind_starts (fPath f) p) as B. destruct (behind (fPath f) p) as [r|].
    + destruct B as (-> & -> & B). eexists. split; [reflexivity|]. right. right. eauto.
    + rewrite B. eauto.
Qed.
Lemma plain_suffix a r : plain (a ++ r) -> plain r.
Proof. unfold plain. rewrite Forall_app. tauto. Qed.
Lemma filterPath_plain f p : normal p = true -> plain p ->
  exists p', filterPath f p = Some p' /\ forall cs n l, reads (cs, InQuoted n l []) p' (cs, InQuoted n l (piecesOf f p)).
Proof.
  intros N P. destruct (filterPath_cases f p N) as (p' & E & C). exists p'. split; [exact E|]. intros cs n l.
  destruct C as [[-> ->]|[(a & r & -> & -> & ->)|(a & r & -> & -> & ->)]].
  - eapply reads_eq; [apply reads_plain; exact P|reflexivity].
  - eapply reads_app with (s1 := (cs, InQuoted n l [Var (txt "SRC_FOLDER")])); [reflexivity|]. eapply reads_eq; [apply reads_plain; apply (plain_suffix a); exact P|reflexivity].
  - eapply reads_app with (s1 := (cs, InQuoted n l [Var (txt "BUILD_FOLDER")])); [reflexivity|]. eapply reads_eq; [apply reads_plain; apply (plain_suffix a); exact P|reflexivity].
Qed.
Lemma escapable_suffix a r : escapable (a ++ r) -> escapable r.
Proof. intros [H K]. apply Forall_app in H. split; [apply H|]. apply (no_overlong_suffix a). exact K. Qed.
Lemma escaped_prefix a r : Forall (fun c => 0 <= c < 128) a -> escapable r -> escapedString (a ++ r) 0 = flat_map escByte a ++ escapedString r 0.
Proof.
  intros A R. rewrite !escaped_flat.
  - apply flat_map_app.
  - apply escapable_bytes; exact R.
  - apply R.
  - apply Forall_app. split; [eapply Forall_impl; [|exact A]; intros ? ?; cbv beta in *; unfold is_byte; lia|apply escapable_bytes; exact R].
  - apply no_overlong_word; [eapply Forall_impl; [|exact A]; cbv beta; intros; lia|apply R].
Qed.
Ltac small := repeat constructor; discriminate.
Lemma filterPath_escaped f p : normal p = true -> escapable p ->
  exists p', filterPath f p = Some p' /\ forall cs n l, reads (cs, InQuoted n l []) (escapedString p' 0) (cs, InQuoted n l (piecesOf f p)).
Proof.
  intros N P. destruct (filterPath_cases f p N) as (p' & E & C). exists p'. split; [exact E|]. intros cs n l.
  destruct C as [[-> ->]|[(a & r & -> & -> & ->)|(a & r & -> & -> & ->)]].
  - eapply reads_eq; [apply reads_escaped; exact P|reflexivity].
  - apply escapable_suffix in P. rewrite escaped_prefix; [|vm_compute; repeat (apply Forall_cons; [split; [discriminate|reflexivity]|]); apply Forall_nil|exact P].
    eapply reads_app with (s1 := (cs, InQuoted n l [Var (txt "SRC_FOLDER")])); [reflexivity|]. eapply reads_eq; [apply reads_escaped; exact P|reflexivity].
  - apply escapable_suffix in P. rewrite escaped_prefix; [|vm_compute; repeat (apply Forall_cons; [split; [discriminate|reflexivity]|]); apply Forall_nil|exact P].
    eapply reads_app with (s1 := (cs, InQuoted n l [Var (txt "BUILD_FOLDER")])); [reflexivity|]. eapply reads_eq; [apply reads_escaped; exact P|reflexivity].
Qed.

(** ** Lines of arguments *)
Definition adds (text : list Z) (l' : list arg) : Prop := forall cs n l, reads (cs, Args n l true) text (cs, Args n (l ++ l') true).
Lemma adds_nil : adds [] [].
Proof. intros cs n l. rewrite app_nil_r. apply reads_nil. Qed.
Lemma adds_app a x b y : adds a x -> adds b y -> adds (a ++ b) (x ++ y).
Proof. intros A B cs n l. eapply reads_app; [apply A|]. rewrite app_assoc. apply B. Qed.
Lemma adds_flat {A} (g : A -> list Z) (h : A -> list arg) l : (forall x, In x l -> adds (g x) (h x)) -> adds (flat_map g l) (flat_map h l).
Proof. induction l as [|x l IH]; intros H; [apply adds_nil|]. cbn. apply adds_app; [apply H; left; reflexivity|apply IH; intros; apply H; right; assumption]. Qed.
Lemma flat_map_single {A B} (g : A -> B) l : flat_map (fun x => [g x]) l = map g l.
Proof. induction l; cbn; congruence. Qed.
Lemma adds_map {A} (g : A -> list Z) (h : A -> arg) l : (forall x, In x l -> adds (g x) [h x]) -> adds (flat_map g l) (map h l).
Proof. intros H. rewrite <- flat_map_single. apply adds_flat. exact H. Qed.
Lemma adds_quoted text ps : (forall cs n l, reads (cs, InQuoted n l []) text (cs, InQuoted n l ps)) -> adds (txt "    " ++ qt ++ text ++ qt ++ nl) [Quoted ps].
Proof.
  intros H cs n l. eapply reads_app with (s1 := (cs, Args n l true)); [reflexivity|].
  eapply reads_app with (s1 := (cs, InQuoted n l [])); [reflexivity|]. eapply reads_app; [apply H|]. reflexivity.
Qed.
Lemma adds_raw s : plain s -> adds (rawLine s) [q s].
Proof. intros P. apply adds_quoted. intros. eapply reads_eq; [apply reads_plain; exact P|reflexivity]. Qed.
Lemma adds_var s : s <> [] -> Forall wordByte s -> adds (varLine s) [v s].
Proof.
  intros N W cs n l. unfold varLine. eapply reads_app with (s1 := (cs, BVar n l [] [])); [reflexivity|].
  eapply reads_app; [apply reads_var; exact W|]. destruct s; [contradiction|]. reflexivity.
Qed.
Lemma mapM_adds {A} (g : A -> option (list Z)) (k : list Z -> list Z) (h : A -> list arg) l :
  (forall x, In x l -> exists y, g x = Some y /\ adds (k y) (h x)) -> exists ys, mapM g l = Some ys /\ adds (flat_map k ys) (flat_map h l).
Proof.
  induction l as [|x l IH]; intros H; [exists []; split; [reflexivity|apply adds_nil]|].
  destruct (H x (or_introl eq_refl)) as (y & E & K). destruct IH as (ys & E2 & K2); [intros; apply H; right; assumption|].
  exists (y :: ys). cbn. rewrite E, E2. split; [reflexivity|]. apply adds_app; assumption.
Qed.
Lemma concat_flat {A} (l : list (list A)) : concat l = flat_map (fun x => x) l.
Proof. induction l; cbn; congruence. Qed.

(** ** Commands *)
Definition does (text : list Z) (cmds : list command) : Prop := forall cs, reads (cs, Line) text (cs ++ cmds, Line).
Lemma does_nil : does [] [].
Proof. intros cs. rewrite app_nil_r. apply reads_nil. Qed.
Lemma does_app a x b y : does a x -> does b y -> does (a ++ b) (x ++ y).
Proof. intros A B cs. eapply reads_app; [apply A|]. rewrite app_assoc. apply B. Qed.
Lemma does_flat {A} (g : A -> list Z) (h : A -> command) l : (forall x, In x l -> does (g x) [h x]) -> does (flat_map g l) (map h l).
Proof.
  induction l as [|x l IH]; intros H; [apply does_nil|]. cbn. change (h x :: map h l) with ([h x] ++ map h l).
  apply does_app; [apply H; left; reflexivity|apply IH; intros; apply H; right; assumption].
Qed.
Lemma mapM_does {A} (g : A -> option (list Z)) (h : A -> command) l :
  (forall x, In x l -> exists y, g x = Some y /\ does y [h x]) -> exists ys, mapM g l = Some ys /\ does (concat ys) (map h l).
Proof.
  induction l as [|x l IH]; intros H; [exists []; split; [reflexivity|apply does_nil]|].
  destruct (H x (or_introl eq_refl)) as (y & E & K). destruct IH as (ys & E2 & K2); [intros; apply H; right; assumption|].
  exists (y :: ys). cbn [mapM]. rewrite E, E2. split; [reflexivity|]. apply (does_app y [h x]); assumption.
Qed.
Lemma does_command name s rest fixed lines args :
  (forall cs, reads (cs, Line) (name ++ txt "(") (cs, Args name [] true)) -> s <> [] -> Forall wordByte s ->
  (forall cs l ps, reads (cs, InBare name l ps) rest (cs, Args name (l ++ [Bare ps] ++ fixed) true)) -> adds lines args ->
  does ((name ++ txt "(") ++ s ++ rest ++ lines ++ txt ")" ++ nl) [(name, w s :: fixed ++ args)].
Proof.
  intros A N W R L cs. eapply reads_app; [apply A|]. eapply reads_app; [apply reads_name; assumption|].
  eapply reads_app; [apply R|]. eapply reads_app; [apply L|]. reflexivity.
Qed.
Lemma upper_words s : Forall wordByte s -> Forall wordByte (sv_upperAsc s).
Proof.
  unfold sv_upperAsc. intros H. apply Forall_map. eapply Forall_impl; [|exact H]. intros c K. unfold wordByte, inVar, isLetter, isNumeral in *.
  destruct ((97 <=? c) && (c <=? 122)) eqn:E; lia.
Qed.
Ltac words := vm_compute; repeat (apply Forall_cons; [reflexivity|]); apply Forall_nil.
Lemma sourcesVar_words t : safeName (tName t) -> sourcesVar t <> [] /\ Forall wordByte (sourcesVar t).
Proof.
  intros H. unfold sourcesVar. split; [destruct (sv_upperAsc (tName t)); discriminate|].
  apply Forall_app. split; [apply upper_words, safe_words, H|words].
Qed.
Lemma frameworkVar_words fw : safeName fw -> frameworkVar fw <> [] /\ Forall wordByte (frameworkVar fw).
Proof.
  intros H. unfold frameworkVar. split; [destruct (sv_upperAsc fw); discriminate|].
  apply Forall_app. split; [apply upper_words, safe_words, H|words].
Qed.
Ltac named := let X := fresh in intros X; unfold reads; cbn; reflexivity.
Ltac assoc D := repeat rewrite <- app_assoc in D; repeat rewrite <- app_assoc.

Lemma group_does f name t g : (forall cs, reads (cs, Line) (name ++ txt "(") (cs, Args name [] true)) -> safeName (tName t) ->
  (forall p, In p (srcRoot g :: srcFiles g) -> normal p = true /\ escapable p) ->
  exists y, sourceGroup f name t g = Some y /\ does y [groupCommand f name t g].
Proof.
  intros A N P. unfold sourceGroup, groupCommand.
  destruct (filterPath_escaped f (srcRoot g)) as (r & -> & R); [apply P; left; reflexivity..|].
  destruct (mapM_adds (filterPath f) escapedLine (fun p => [pathArg f p]) (srcFiles g)) as (ys & -> & L).
  { intros x I. destruct (filterPath_escaped f x) as (y & E & K); [apply P; right; assumption..|]. exists y. split; [exact E|]. apply adds_quoted. exact K. }
  rewrite flat_map_single in L. eexists. split; [reflexivity|]. destruct (sourcesVar_words t N) as [V W]. intros cs.
  rewrite (app_assoc name). eapply reads_app; [apply A|]. eapply reads_app; [apply reads_name; assumption|].
  eapply reads_app with (s1 := (cs, Args name [w (sourcesVar t)] true)); [reflexivity|].
  eapply reads_app with (s1 := (cs, InQuoted name [w (sourcesVar t)] [])); [reflexivity|]. eapply reads_app; [apply R|].
  rewrite (app_assoc qt). eapply reads_app with (s1 := (cs, Args name [w (sourcesVar t); pathArg f (srcRoot g)] true)); [reflexivity|].
  eapply reads_app; [apply L|]. reflexivity.
Qed.
Lemma varNames_spec t : varNames t = groupNames t.
Proof. unfold varNames, groupNames. destruct (tSources t) as [|g l]; [destruct (tOthers t); reflexivity|]. cbn. f_equal. induction l; cbn; congruence. Qed.
Lemma groupNames_in t x : In x (groupNames t) -> x = sourcesVar t.
Proof. unfold groupNames. apply repeat_spec. Qed.

Lemma plain_not_dollar p r : plain p -> sv_startsWith p (36 :: r) = false.
Proof.
  intros P. destruct (sv_startsWith p (36 :: r)) eqn:E; [|reflexivity]. apply sv_startsWith_iff in E. destruct E as [x ->]. inversion P; subst. lia.
Qed.
Definition libOk (k : libKind) : Prop := match k with Objects n | InVariable n => safeName n | File p => normal p = true /\ plain p end.
Lemma isObjects_spec k : libOk k -> isObjects (libText k) = match k with Objects _ => true | _ => false end.
Proof.
  destruct k; cbn [libOk libText]; intros H; unfold isObjects.
  - apply sv_startsWith_iff. exists ([58] ++ n ++ txt ">"). reflexivity.
  - destruct (sv_startsWith _ _) eqn:E; [|reflexivity]. apply sv_startsWith_iff in E. destruct E as [r E]. discriminate E.
  - apply plain_not_dollar. apply H.
Qed.
Lemma adds_object n : safeName n -> adds (bareLine (libText (Objects n))) [w (libText (Objects n))].
Proof.
  intros H cs m l. unfold bareLine, libText. rewrite <- !app_assoc.
  eapply reads_app with (s1 := (cs, Args m l true)); [reflexivity|].
  eapply reads_app with (s1 := (cs, InBare m l (bytes (txt "$<TARGET_OBJECTS:")))); [reflexivity|].
  eapply reads_app; [apply reads_word, safe_words, H|].
  eapply reads_eq; [reflexivity|]. unfold w, bytes. rewrite !map_app, <- app_assoc. reflexivity.
Qed.
Lemma links_adds (libs : list libKind) : (forall k, In k libs -> libOk k) ->
  adds (flat_map (fun l => if isObjects l then bareLine l else []) (rev (map libText libs)))
       (flat_map (fun k => match k with Objects _ => [w (libText k)] | _ => [] end) (rev libs)).
Proof.
  intros H. rewrite <- map_rev. rewrite flat_map_concat_map, map_map, <- flat_map_concat_map. apply adds_flat.
  intros k I. apply in_rev, H in I. rewrite isObjects_spec by exact I. destruct k; [|apply adds_nil..]. apply adds_object. exact I.
Qed.
Lemma names_adds t : safeName (tName t) -> adds (flat_map varLine (varNames t)) (map v (groupNames t)).
Proof. intros N. rewrite varNames_spec. apply adds_map. intros x I. apply groupNames_in in I. subst x. apply adds_var; apply sourcesVar_words; exact N. Qed.

Lemma addTarget_does t libs : safeName (tName t) -> tLibs t = map libText libs -> (forall k, In k libs -> libOk k) ->
  does (addTarget t)
   ([(fst (typeArgs t), w (tName t) :: snd (typeArgs t) ++ map v (groupNames t) ++
     (if match tType t with DLL | EXE => true | _ => false end then flat_map (fun k => match k with Objects _ => [w (libText k)] | _ => [] end) (rev libs) else []))] ++
    match tType t with EXE => [(txt "set_property", [w (txt "TARGET"); w (tName t); w (txt "PROPERTY"); w (txt "ENABLE_EXPORTS"); w (txt "TRUE")])] | _ => [] end).
Proof.
  intros N EL HL. unfold addTarget. rewrite EL. pose proof (links_adds libs HL) as LL. pose proof (names_adds t N) as NN.
  assert (L : adds (flat_map varLine (varNames t) ++ (if linked t then flat_map (fun l => if isObjects l then bareLine l else []) (rev (map libText libs)) else []))
                   (map v (groupNames t) ++ (if match tType t with DLL | EXE => true | _ => false end then flat_map (fun k => match k with Objects _ => [w (libText k)] | _ => [] end) (rev libs) else []))).
  { apply adds_app; [exact NN|]. unfold linked. destruct (tType t); first [exact LL|apply adds_nil]. }
  rewrite (app_assoc (txt ")")), (app_assoc (flat_map varLine _) _), (app_assoc (heading t)), (app_assoc _ (txt ")" ++ nl)).
  apply does_app.
  - unfold heading, typeArgs. pose proof (safe_words _ N) as W. destruct N as [N _].
    destruct (tType t); cbn [fst snd app];
      match goal with |- does _ [(?name, w ?s :: ?x)] => idtac end.
    + pose proof (does_command (txt "add_custom_target") (tName t) (txt " SOURCES" ++ nl) [w (txt "SOURCES")] _ _ ltac:(named) N W ltac:(intros; unfold reads; cbn; rewrite <- app_assoc; reflexivity) L) as D.
      assoc D. exact D.
    + pose proof (does_command (txt "add_library") (tName t) nl [] _ _ ltac:(named) N W ltac:(intros; reflexivity) L) as D.
      assoc D. exact D.
    + pose proof (does_command (txt "add_library") (tName t) (txt " OBJECT" ++ nl) [w (txt "OBJECT")] _ _ ltac:(named) N W ltac:(intros; unfold reads; cbn; rewrite <- app_assoc; reflexivity) L) as D.
      assoc D. exact D.
    + pose proof (does_command (txt "add_library") (tName t) (txt " SHARED" ++ nl) [w (txt "SHARED")] _ _ ltac:(named) N W ltac:(intros; unfold reads; cbn; rewrite <- app_assoc; reflexivity) L) as D.
      assoc D. exact D.
    + pose proof (does_command (txt "add_executable") (tName t) nl [] _ _ ltac:(named) N W ltac:(intros; reflexivity) L) as D.
      assoc D. exact D.
  - destruct (tType t); try apply does_nil. intros cs. pose proof (safe_words _ N) as W. destruct N as [N _].
    eapply reads_app with (s1 := (cs, Args (txt "set_property") [w (txt "TARGET")] true)); [reflexivity|].
    eapply reads_app; [apply reads_name; assumption|]. reflexivity.
Qed.

Lemma pch_does f t : safeName (tName t) ->
  (tPchInclude t <> [] -> normal (tPchSource t) = true /\ plain (tPchSource t) /\ plain (tPchInclude t)) ->
  exists y, precompiled f t = Some y /\
  does y (if match tPchInclude t with [] => true | _ => false end then []
   else map (fun g => (txt "SetPrecompiledHeader",
                       [w (tName t); w g; pathArg f (tPchSource t); q (tPchInclude t); q (tName t ++ txt ".$<CONFIG>.pch")])) (groupNames t)).
Proof.
  intros N H. unfold precompiled. destruct (tPchInclude t) as [|c i] eqn:EI; [exists []; split; [reflexivity|apply does_nil]|].
  destruct H as (HN & HS & HI); [discriminate|]. rewrite <- EI in *. clear EI. rewrite varNames_spec.
  destruct (filterPath_plain f (tPchSource t) HN HS) as (p & E & R).
  destruct (mapM_does (fun x => do p <- filterPath f (tPchSource t);
        Some (txt "SetPrecompiledHeader(" ++ tName t ++ txt " " ++ x ++ nl ++ rawLine p ++ rawLine (tPchInclude t) ++
              rawLine (tName t ++ txt ".$<CONFIG>.pch") ++ txt ")" ++ nl))
      (fun g => (txt "SetPrecompiledHeader", [w (tName t); w g; pathArg f (tPchSource t); q (tPchInclude t); q (tName t ++ txt ".$<CONFIG>.pch")])) (groupNames t)) as (ys & -> & D).
  - intros x I. apply groupNames_in in I. subst x. rewrite E. eexists. split; [reflexivity|]. intros cs.
    pose proof (sourcesVar_words t N) as [V VW]. pose proof (safe_words _ N) as W. destruct N as [N _].
    eapply reads_app with (s1 := (cs, Args (txt "SetPrecompiledHeader") [] true)); [reflexivity|].
    eapply reads_app; [apply reads_name; assumption|].
    eapply reads_app with (s1 := (cs, Args (txt "SetPrecompiledHeader") [w (tName t)] true)); [reflexivity|].
    eapply reads_app; [apply reads_name; assumption|].
    eapply reads_app with (s1 := (cs, Args (txt "SetPrecompiledHeader") [w (tName t); w (sourcesVar t)] true)); [reflexivity|].
    eapply reads_app; [apply adds_quoted; exact R|]. eapply reads_app; [apply adds_raw; exact HI|].
    assert (PL : adds (rawLine (tName t ++ txt ".$<CONFIG>.pch")) [q (tName t ++ txt ".$<CONFIG>.pch")]).
    { apply adds_quoted. intros cs0 n l. eapply reads_app; [apply reads_plain|].
      - eapply Forall_impl; [|exact W]. intros a K. cbv beta. unfold wordByte, inVar, isLetter, isNumeral in K. lia.
      - eapply reads_eq; [reflexivity|]. unfold bytes. rewrite map_app. cbn. rewrite <- !app_assoc. reflexivity. }
    eapply reads_app; [apply PL|]. reflexivity.
  - eexists. split; [reflexivity|]. exact D.
Qed.

Lemma exceptions_does t : safeName (tName t) -> tType t <> HeaderOnly ->
  does (exceptions t) [(txt "EnableCppExceptions", [w (tName t); w (if in_dec (list_eq_dec Z.eq_dec) (txt "exceptions") (tFlags t) then txt "TRUE" else txt "FALSE")])].
Proof.
  intros N H cs. unfold exceptions. assert (X : isHeaderOnly t = false) by (unfold isHeaderOnly; destruct (tType t); congruence). rewrite X.
  assert (B : existsb (bytes_eqb (txt "exceptions")) (tFlags t) = if in_dec (list_eq_dec Z.eq_dec) (txt "exceptions") (tFlags t) then true else false).
  { destruct (in_dec _ _ _) as [I|I]; [apply existsb_exists; exists (txt "exceptions"); split; [exact I|apply bytes_eqb_eq; reflexivity]|].
    destruct (existsb _ _) eqn:E; [|reflexivity]. apply existsb_exists in E. destruct E as (y & Y & E). apply bytes_eqb_eq in E. subst y. contradiction. }
  rewrite B. pose proof (safe_words _ N) as W. destruct N as [N _].
  eapply reads_app with (s1 := (cs, Args (txt "EnableCppExceptions") [] true)); [reflexivity|].
  eapply reads_app; [apply reads_name; assumption|]. destruct (in_dec _ _ _); reflexivity.
Qed.
Lemma include_does f t : safeName (tName t) -> tType t <> HeaderOnly -> (forall p, In p (tIncludes t) -> normal p = true /\ plain p) ->
  exists y, includeDirs f t = Some y /\ does y [(txt "target_include_directories", w (tName t) :: w (txt "PRIVATE") :: map (pathArg f) (rev (tIncludes t)))].
Proof.
  intros N H P. unfold includeDirs. assert (X : isHeaderOnly t = false) by (unfold isHeaderOnly; destruct (tType t); congruence). rewrite X.
  destruct (mapM_adds (filterPath f) rawLine (fun p => [pathArg f p]) (rev (tIncludes t))) as (ys & -> & L).
  { intros x I. apply in_rev, P in I. destruct I as [I J]. destruct (filterPath_plain f x I J) as (y & E & K). exists y. split; [exact E|]. apply adds_quoted. exact K. }
  rewrite flat_map_single in L. eexists. split; [reflexivity|]. pose proof (safe_words _ N) as W. destruct N as [N _].
  pose proof (does_command (txt "target_include_directories") (tName t) (txt " PRIVATE" ++ nl) [w (txt "PRIVATE")] _ _ ltac:(named) N W ltac:(intros; unfold reads; cbn; rewrite <- app_assoc; reflexivity) L) as D.
  assoc D. exact D.
Qed.
Lemma noEquals_spec s : ~ In 61 s -> noEquals s = true.
Proof.
  intros H. unfold noEquals. destruct (existsb (Z.eqb 61) s) eqn:E; [|reflexivity]. apply existsb_exists in E. destruct E as (x & I & E). apply Z.eqb_eq in E. subst x. contradiction.
Qed.
Lemma defines_does t : safeName (tName t) -> tType t <> HeaderOnly ->
  (forall d, In d (tDefines t) -> plain (fst d) /\ plain (snd d) /\ ~ In 61 (fst d) /\ ~ In 61 (snd d)) ->
  exists y, defines t = Some y /\
  does y match tDefines t with
     | [] => []
     | ds => [(txt "target_compile_definitions", w (tName t) :: w (txt "PRIVATE") :: map (fun d => q (fst d ++ txt "=" ++ snd d)) ds)]
     end.
Proof.
  intros N H P. unfold defines. assert (X : isHeaderOnly t = false) by (unfold isHeaderOnly; destruct (tType t); congruence). rewrite X.
  destruct (tDefines t) as [|d ds] eqn:ED; [exists []; split; [reflexivity|apply does_nil]|]. rewrite <- ED in *. clear ED.
  match goal with |- context [mapM ?g _] => destruct (mapM_adds g (fun x => x) (fun d => [q (fst d ++ txt "=" ++ snd d)]) (tDefines t)) as (ys & -> & L) end.
  { intros x I. destruct (P x I) as (A & B & C & D). rewrite !noEquals_spec by assumption. eexists. split; [reflexivity|]. apply adds_raw.
    apply Forall_app. split; [exact A|]. constructor; [cbn; lia|exact B]. }
  rewrite flat_map_single, <- concat_flat in L. eexists. split; [reflexivity|]. pose proof (safe_words _ N) as W. destruct N as [N _].
  pose proof (does_command (txt "target_compile_definitions") (tName t) (txt " PRIVATE" ++ nl) [w (txt "PRIVATE")] _ _ ltac:(named) N W ltac:(intros; unfold reads; cbn; rewrite <- app_assoc; reflexivity) L) as D.
  assoc D. exact D.
Qed.
Lemma framework_does fw : safeName fw -> does (findFramework fw) [(txt "find_library", [w (frameworkVar fw); w fw])].
Proof.
  intros N cs. destruct (frameworkVar_words fw N) as [V VW]. pose proof (safe_words _ N) as W. destruct N as [N _]. unfold findFramework.
  eapply reads_app with (s1 := (cs, Args (txt "find_library") [] true)); [reflexivity|].
  eapply reads_app; [apply reads_name; assumption|].
  eapply reads_app with (s1 := (cs, Args (txt "find_library") [w (frameworkVar fw)] true)); [reflexivity|].
  eapply reads_app; [apply reads_name; assumption|]. reflexivity.
Qed.
Lemma linkLine_adds f k : libOk k -> exists y, linkLine f (libText k) = Some y /\
  adds y (match k with Objects _ => [] | InVariable n => [v n] | File p => [pathArg f p] end).
Proof.
  intros H. unfold linkLine. rewrite isObjects_spec by exact H. destruct k as [n|n|p].
  - exists []. split; [reflexivity|apply adds_nil].
  - assert (X : sv_startsWith (libText (InVariable n)) (txt "${") = true) by (apply sv_startsWith_iff; eexists; reflexivity). rewrite X.
    eexists. split; [reflexivity|]. change (bareLine (libText (InVariable n))) with (txt "    " ++ (txt "${" ++ n ++ txt "}") ++ nl).
    pose proof (adds_var n (proj1 H) (safe_words _ H)) as D. unfold varLine in D. rewrite <- !app_assoc. exact D.
  - cbn [libText libOk] in *. destruct H as [H P]. rewrite (plain_not_dollar p [123] P : sv_startsWith p (txt "${") = false).
    destruct (filterPath_plain f p H P) as (y & -> & R). eexists. split; [reflexivity|]. apply adds_quoted. exact R.
Qed.
Lemma link_does f t libs : safeName (tName t) -> tLibs t = map libText libs -> (forall k, In k libs -> libOk k) -> (forall fw, In fw (tFrameworks t) -> safeName fw) ->
  exists y, linkLibs f t = Some y /\
  does y (if match libs, tFrameworks t with [], [] => true | _, _ => false end then []
      else [(txt "target_link_libraries", w (tName t) :: w (txt "PRIVATE") ::
              flat_map (fun k => match k with Objects _ => [] | InVariable n => [v n] | File p => [pathArg f p] end) (rev libs) ++
              map (fun fw => v (frameworkVar fw)) (tFrameworks t))]).
Proof.
  intros N EL HL HF. unfold linkLibs. rewrite EL.
  assert (M : exists ys, mapM (linkLine f) (rev (map libText libs)) = Some ys /\
     adds (concat ys) (flat_map (fun k => match k with Objects _ => [] | InVariable n => [v n] | File p => [pathArg f p] end) (rev libs))).
  { assert (HR : forall k, In k (rev libs) -> libOk k) by (intros k I; apply HL; apply in_rev; exact I). rewrite <- map_rev.
    revert HR. generalize (rev libs). clear. intros l. induction l as [|k l IH]; intros HR; [exists []; split; [reflexivity|apply adds_nil]|].
    destruct (linkLine_adds f k (HR k (or_introl eq_refl))) as (y & E & A). destruct IH as (ys & E2 & B); [intros; apply HR; right; assumption|].
    exists (y :: ys). cbn [map mapM]. rewrite E, E2. split; [reflexivity|]. cbn [concat flat_map]. apply adds_app; assumption. }
  destruct M as (ys & EM & L).
  assert (LF : adds (flat_map (fun fw => varLine (frameworkVar fw)) (tFrameworks t)) (map (fun fw => v (frameworkVar fw)) (tFrameworks t))).
  { apply adds_map. intros fw I. apply adds_var; apply frameworkVar_words, HF, I. }
  pose proof (adds_app _ _ _ _ L LF) as LL. pose proof (safe_words _ N) as W. destruct N as [N _].
  pose proof (does_command (txt "target_link_libraries") (tName t) (txt " PRIVATE" ++ nl) [w (txt "PRIVATE")] _ _ ltac:(named) N W ltac:(intros; unfold reads; cbn; rewrite <- app_assoc; reflexivity) LL) as D.
  rewrite EM. clear EM L LF LL EL. destruct libs as [|k libs], (tFrameworks t) as [|fw fws]; cbn [map]; try (exists []; split; [reflexivity|apply does_nil]);
    (eexists; split; [reflexivity|]; assoc D; exact D).
Qed.
Lemma dlls_does t : safeName (tName t) -> (forall p, In p (tDlls t) -> plain p) ->
  does (copyDlls t) match tDlls t with [] => [] | ds => [(txt "AddDLLCopyStep", w (tName t) :: map q (rev ds))] end.
Proof.
  intros N P. unfold copyDlls. destruct (tDlls t) as [|d ds] eqn:ED; [apply does_nil|]. rewrite <- ED in *. clear ED.
  assert (L : adds (flat_map rawLine (rev (tDlls t))) (map q (rev (tDlls t)))) by (apply adds_map; intros x I; apply adds_raw, P; apply in_rev; exact I).
  pose proof (safe_words _ N) as W. destruct N as [N _].
  pose proof (does_command (txt "AddDLLCopyStep") (tName t) nl [] _ _ ltac:(named) N W ltac:(intros; reflexivity) L) as D.
  assoc D. exact D.
Qed.
Lemma tool_does f t :
  does (copyTool f t) (if fBootstrap f then
        if list_eq_dec Z.eq_dec (tName t) (txt "plytool") then
          [(txt "add_custom_command", [w (txt "TARGET"); w (txt "plytool"); w (txt "POST_BUILD"); w (txt "COMMAND"); v (txt "CMAKE_COMMAND"); w (txt "-E");
            w (txt "copy_if_different"); w (txt "$<TARGET_FILE:plytool>"); Quoted [Var (txt "WORKSPACE_FOLDER")]])]
        else []
      else []).
Proof.
  unfold copyTool. destruct (fBootstrap f); [|apply does_nil]. cbn [andb].
  assert (B : bytes_eqb (tName t) (txt "plytool") = if list_eq_dec Z.eq_dec (tName t) (txt "plytool") then true else false).
  { destruct (list_eq_dec Z.eq_dec _ _) as [E|E]; [apply bytes_eqb_eq; exact E|]. destruct (bytes_eqb _ _) eqn:X; [|reflexivity]. apply bytes_eqb_eq in X. contradiction. }
  rewrite B. destruct (list_eq_dec Z.eq_dec _ _); [|apply does_nil]. intros cs. reflexivity.
Qed.

Lemma target_does f t libs : plainTarget f t libs -> exists y, writeTarget f t = Some y /\ does y (targetCommands f t libs).
Proof.
  intros (N & PS & PP & PI & PD & EL & HL & PDl & PF). unfold writeTarget, targetCommands.
  destruct (mapM_does (sourceGroup f (txt "SetSourceFolders") t) (groupCommand f (txt "SetSourceFolders") t) (tSources t)) as (s1 & -> & D1).
  { intros g I. apply group_does; [named|exact N|]. intros p. apply PS. apply in_or_app. left. exact I. }
  destruct (mapM_does (sourceGroup f (txt "SetNonParticipatingFiles") t) (groupCommand f (txt "SetNonParticipatingFiles") t) (tOthers t)) as (s2 & -> & D2).
  { intros g I. apply group_does; [named|exact N|]. intros p. apply PS. apply in_or_app. right. exact I. }
  destruct (pch_does f t N PP) as (s3 & -> & D3).
  pose proof (addTarget_does t libs N EL HL) as D4.
  assert (D0 : does (nl ++ txt "# " ++ tName t ++ nl) []).
  { intros cs. rewrite app_nil_r. eapply reads_app with (s1 := (cs, Line)); [reflexivity|]. eapply reads_app with (s1 := (cs, Comment)); [reflexivity|].
    eapply reads_app with (s1 := (cs, Comment)); [|reflexivity]. pose proof (safe_words _ N) as W. clear - W. induction W as [|c s H W IH]; [reflexivity|].
    eapply reads_cons; [|exact IH]. cbn [step]. destruct (c =? 10) eqn:E; [|reflexivity]. unfold wordByte, inVar, isLetter, isNumeral in H. lia. }
  assert (DL : linked t = true -> exists y, (do l <- linkLibs f t; Some (flat_map findFramework (tFrameworks t) ++ l ++ copyDlls t ++ copyTool f t)) = Some y /\
    does y (map (fun fw => (txt "find_library", [w (frameworkVar fw); w fw])) (tFrameworks t) ++
     (if match libs, tFrameworks t with [], [] => true | _, _ => false end then []
      else [(txt "target_link_libraries", w (tName t) :: w (txt "PRIVATE") ::
              flat_map (fun k => match k with Objects _ => [] | InVariable n => [v n] | File p => [pathArg f p] end) (rev libs) ++
              map (fun fw => v (frameworkVar fw)) (tFrameworks t))]) ++
     match tDlls t with [] => [] | ds => [(txt "AddDLLCopyStep", w (tName t) :: map q (rev ds))] end ++
     (if fBootstrap f then
        if list_eq_dec Z.eq_dec (tName t) (txt "plytool") then
          [(txt "add_custom_command", [w (txt "TARGET"); w (txt "plytool"); w (txt "POST_BUILD"); w (txt "COMMAND"); v (txt "CMAKE_COMMAND"); w (txt "-E");
            w (txt "copy_if_different"); w (txt "$<TARGET_FILE:plytool>"); Quoted [Var (txt "WORKSPACE_FOLDER")]])]
        else []
      else []))).
  { intros _. destruct (link_does f t libs N EL HL PF) as (y & -> & D). eexists. split; [reflexivity|].
    apply does_app; [apply does_flat; intros fw I; apply framework_does, PF, I|]. apply does_app; [exact D|]. apply does_app; [apply dlls_does; assumption|apply tool_does]. }
  destruct (tType t) eqn:ET.
  - assert (X : isHeaderOnly t = true) by (unfold isHeaderOnly; rewrite ET; reflexivity). assert (Y : linked t = false) by (unfold linked; rewrite ET; reflexivity).
    unfold includeDirs, defines, exceptions. rewrite X, Y. eexists. split; [reflexivity|].
    pose proof (does_app _ _ _ _ D0 (does_app _ _ _ _ D1 (does_app _ _ _ _ D2 (does_app _ _ _ _ D4 (does_app _ _ _ _ D3 (does_nil)))))) as D.
    assoc D. rewrite ?app_nil_r in *. exact D.
  - assert (NH : tType t <> HeaderOnly) by congruence. pose proof (exceptions_does t N NH) as D5. destruct (include_does f t N NH PI) as (s6 & -> & D6).
    destruct (defines_does t N NH PD) as (s7 & -> & D7). assert (Y : linked t = false) by (unfold linked; rewrite ET; reflexivity). rewrite Y. eexists. split; [reflexivity|].
    pose proof (does_app _ _ _ _ D0 (does_app _ _ _ _ D1 (does_app _ _ _ _ D2 (does_app _ _ _ _ D4 (does_app _ _ _ _ D3 (does_app _ _ _ _ D5 (does_app _ _ _ _ D6 (does_app _ _ _ _ D7 does_nil)))))))) as D.
    assoc D. exact D.
  - assert (NH : tType t <> HeaderOnly) by congruence. pose proof (exceptions_does t N NH) as D5. destruct (include_does f t N NH PI) as (s6 & -> & D6).
    destruct (defines_does t N NH PD) as (s7 & -> & D7). assert (Y : linked t = false) by (unfold linked; rewrite ET; reflexivity). rewrite Y. eexists. split; [reflexivity|].
    pose proof (does_app _ _ _ _ D0 (does_app _ _ _ _ D1 (does_app _ _ _ _ D2 (does_app _ _ _ _ D4 (does_app _ _ _ _ D3 (does_app _ _ _ _ D5 (does_app _ _ _ _ D6 (does_app _ _ _ _ D7 does_nil)))))))) as D.
    assoc D. exact D.
  - assert (NH : tType t <> HeaderOnly) by congruence. pose proof (exceptions_does t N NH) as D5. destruct (include_does f t N NH PI) as (s6 & -> & D6).
    destruct (defines_does t N NH PD) as (s7 & -> & D7). assert (Y : linked t = true) by (unfold linked; rewrite ET; reflexivity). rewrite Y. destruct (DL Y) as (s8 & -> & D8). eexists. split; [reflexivity|].
    pose proof (does_app _ _ _ _ D0 (does_app _ _ _ _ D1 (does_app _ _ _ _ D2 (does_app _ _ _ _ D4 (does_app _ _ _ _ D3 (does_app _ _ _ _ D5 (does_app _ _ _ _ D6 (does_app _ _ _ _ D7 D8)))))))) as D.
    assoc D. exact D.
  - assert (NH : tType t <> HeaderOnly) by congruence. pose proof (exceptions_does t N NH) as D5. destruct (include_does f t N NH PI) as (s6 & -> & D6).
    destruct (defines_does t N NH PD) as (s7 & -> & D7). assert (Y : linked t = true) by (unfold linked; rewrite ET; reflexivity). rewrite Y. destruct (DL Y) as (s8 & -> & D8). eexists. split; [reflexivity|].
    pose proof (does_app _ _ _ _ D0 (does_app _ _ _ _ D1 (does_app _ _ _ _ D2 (does_app _ _ _ _ D4 (does_app _ _ _ _ D3 (does_app _ _ _ _ D5 (does_app _ _ _ _ D6 (does_app _ _ _ _ D7 D8)))))))) as D.
    assoc D. exact D.
Qed.

Lemma preamble_does f : safeName (fName f) -> escapable (fHelper f) -> does (preamble f) (headCommands f).
Proof.
  intros N H cs. unfold preamble, headCommands. pose proof (safe_words _ N) as W. destruct N as [N _].
  assert (A : forall rest cmds, does rest cmds -> reads (cs, Line)
     (txt "cmake_minimum_required(VERSION 3.8)" ++ nl ++ txt "set(CMAKE_CONFIGURATION_TYPES " ++ qt ++ txt "Debug;RelWithAsserts;RelWithDebInfo" ++ qt ++ txt " CACHE INTERNAL " ++
      qt ++ txt "Build configs" ++ qt ++ txt ")" ++ nl ++ txt "project(" ++ fName f ++ txt ")" ++ nl ++ rest)
     (cs ++ [(txt "cmake_minimum_required", [w (txt "VERSION"); w (txt "3.8")]);
       (txt "set", [w (txt "CMAKE_CONFIGURATION_TYPES"); q (txt "Debug;RelWithAsserts;RelWithDebInfo"); w (txt "CACHE"); w (txt "INTERNAL"); q (txt "Build configs")]);
       (txt "project", [w (fName f)])] ++ cmds, Line)).
  { intros rest cmds D.
    set (cs1 := (cs ++ [(txt "cmake_minimum_required", [w (txt "VERSION"); w (txt "3.8")])]) ++
       [(txt "set", [w (txt "CMAKE_CONFIGURATION_TYPES"); q (txt "Debug;RelWithAsserts;RelWithDebInfo"); w (txt "CACHE"); w (txt "INTERNAL"); q (txt "Build configs")])]).
    assert (S1 : forall x, reads (cs1, Args (txt "project") [] true) x (cs ++ [(txt "cmake_minimum_required", [w (txt "VERSION"); w (txt "3.8")]);
       (txt "set", [w (txt "CMAKE_CONFIGURATION_TYPES"); q (txt "Debug;RelWithAsserts;RelWithDebInfo"); w (txt "CACHE"); w (txt "INTERNAL"); q (txt "Build configs")]);
       (txt "project", [w (fName f)])] ++ cmds, Line) -> reads (cs, Line)
     (txt "cmake_minimum_required(VERSION 3.8)" ++ nl ++ txt "set(CMAKE_CONFIGURATION_TYPES " ++ qt ++ txt "Debug;RelWithAsserts;RelWithDebInfo" ++ qt ++ txt " CACHE INTERNAL " ++
      qt ++ txt "Build configs" ++ qt ++ txt ")" ++ nl ++ txt "project(" ++ x)
     (cs ++ [(txt "cmake_minimum_required", [w (txt "VERSION"); w (txt "3.8")]);
       (txt "set", [w (txt "CMAKE_CONFIGURATION_TYPES"); q (txt "Debug;RelWithAsserts;RelWithDebInfo"); w (txt "CACHE"); w (txt "INTERNAL"); q (txt "Build configs")]);
       (txt "project", [w (fName f)])] ++ cmds, Line)).
    { intros x X. exact X. }
    apply S1. clear S1. eapply reads_app; [apply reads_name; assumption|]. rewrite app_assoc.
    eapply reads_app with (s1 := (cs1 ++ [(txt "project", [w (fName f)])], Line)); [reflexivity|]. eapply reads_eq; [apply D|]. unfold cs1. rewrite <- !app_assoc. reflexivity. }
  apply A. destruct (fBootstrap f).
  - intros c. unfold reads. cbn. rewrite <- !app_assoc. reflexivity.
  - intros c. eapply reads_app with (s1 := (c, Args (txt "include") [] true)); [reflexivity|]. eapply reads_app with (s1 := (c, InQuoted (txt "include") [] [])); [reflexivity|].
    eapply reads_app; [apply reads_escaped; exact H|]. reflexivity.
Qed.
Lemma written_read f libs : plainFolder f libs ->
  exists text, writeCMakeLists f = Some text /\ cmakeRead text = Some (headCommands f ++ allCommands f (fTargets f) libs).
Proof.
  intros (N & A & B & H & F). unfold writeCMakeLists. rewrite A, B. cbn [andb].
  assert (M : exists ys, mapM (writeTarget f) (fTargets f) = Some ys /\ does (concat ys) (allCommands f (fTargets f) libs)).
  { clear - F. induction F as [|t l ts ls P F IH]; [exists []; split; [reflexivity|apply does_nil]|].
    destruct (target_does f t l P) as (y & E & D). destruct IH as (ys & E2 & D2). exists (y :: ys). cbn [mapM]. rewrite E, E2. split; [reflexivity|].
    cbn [concat allCommands]. apply does_app; assumption. }
  destruct M as (ys & -> & D). eexists. split; [reflexivity|].
  pose proof (does_app _ _ _ _ (preamble_does f N H) D []) as R. unfold reads in R. unfold cmakeRead. rewrite R. reflexivity.
Qed.

(** ** What is built *)
Definition entries (t : target) (g : sources) : list (list Z * list Z) := map (fun x => (sourcesVar t, srcRoot g ++ txt "/" ++ x)) (srcFiles g).
Lemma textOf_bytes s : flat_map (fun p => match p with Byte b => [b] | Var _ => [] end) (bytes s) = s.
Proof. induction s; [reflexivity|]. cbn. f_equal. exact IHs. Qed.
Lemma textOf_path f p : fBootstrap f = false -> textOf (pathArg f p) = p.
Proof. intros B. unfold pathArg. rewrite B. apply textOf_bytes. Qed.
Lemma build_groups f t name : In name [txt "SetSourceFolders"; txt "SetNonParticipatingFiles"] -> fBootstrap f = false -> forall gs env rest,
  build env (map (groupCommand f name t) gs ++ rest) = build (env ++ flat_map (entries t) gs) rest.
Proof.
  intros I B. induction gs as [|g gs IH]; intros env rest; [cbn [map app flat_map]; rewrite app_nil_r; reflexivity|].
  cbn [map app build groupCommand]. replace (mem name [txt "SetSourceFolders"; txt "SetNonParticipatingFiles"]) with true by (unfold mem; destruct (in_dec _ _ _); [reflexivity|contradiction]).
  rewrite IH. cbn [flat_map]. rewrite <- app_assoc. do 2 f_equal. f_equal. unfold entries. rewrite map_map. apply map_ext. intros x. rewrite !textOf_path by exact B.
  f_equal. apply textOf_bytes.
Qed.
Definition ignored (c : command) : Prop :=
  mem (fst c) [txt "SetSourceFolders"; txt "SetNonParticipatingFiles"] = false /\ mem (fst c) [txt "add_library"; txt "add_executable"; txt "add_custom_target"] = false.
Lemma build_ignored cs : Forall ignored cs -> forall env rest, build env (cs ++ rest) = build env rest.
Proof. induction 1 as [|[n l] cs [A B] F IH]; intros env rest; [reflexivity|]. cbn [app build]. cbn [fst] in A, B. rewrite A, B. apply IH. Qed.
Definition allFiles (t : target) : list (list Z * list Z) := flat_map (entries t) (tSources t ++ tOthers t).
Ltac ign := repeat first [apply Forall_nil | apply Forall_cons; [split; reflexivity|] | apply Forall_app; split].
Lemma build_target f t libs env rest : fBootstrap f = false ->
  exists fs, build env (targetCommands f t libs ++ rest) = (tName t, fs) :: build (env ++ allFiles t) rest /\
  forall p, In p fs <-> groupNames t <> [] /\ In p (filesIn (sourcesVar t) (env ++ allFiles t)).
Proof.
  intros B. unfold targetCommands. rewrite <- !app_assoc. rewrite build_groups by (auto; left; reflexivity).
  rewrite build_groups by (auto; right; left; reflexivity). rewrite <- app_assoc, <- flat_map_app. fold (allFiles t). set (env' := env ++ allFiles t).
  match goal with |- context [build env' ([?c] ++ ?a ++ ?b ++ ?d ++ ?e ++ rest)] => set (cmd := c); set (ca := a); set (cb := b); set (cd := d); set (ce := e) end.
  assert (IG : Forall ignored (ca ++ cb ++ cd ++ ce)).
  { subst ca cb cd ce. apply Forall_app; split; [|apply Forall_app; split; [|apply Forall_app; split]].
    - destruct (tType t); ign.
    - destruct (tPchInclude t); [ign|]. apply Forall_map. apply Forall_forall. intros; split; reflexivity.
    - destruct (tType t); [ign|..]; (apply Forall_app; split; [ign|]; destruct (tDefines t); ign).
    - assert (L : Forall ignored (map (fun fw => (txt "find_library", [w (frameworkVar fw); w fw])) (tFrameworks t))) by (apply Forall_map, Forall_forall; intros; split; reflexivity).
      rewrite B. destruct (tType t); [ign..| |]; (apply Forall_app; split; [exact L|]; apply Forall_app; split; [destruct libs, (tFrameworks t); ign|]; apply Forall_app; split; [destruct (tDlls t); ign|ign]). }
  assert (EB : build env' ([cmd] ++ ca ++ cb ++ cd ++ ce ++ rest) = build env' ([cmd] ++ (ca ++ cb ++ cd ++ ce) ++ rest)) by (rewrite <- !app_assoc; reflexivity).
  rewrite EB. clear EB. subst cmd.
  set (tail := (ca ++ cb ++ cd ++ ce) ++ rest). assert (ET : build env' tail = build env' rest) by (apply build_ignored; exact IG).
  set (objs := if match tType t with DLL | EXE => true | _ => false end then flat_map (fun k => match k with Objects _ => [w (libText k)] | _ => [] end) (rev libs) else []).
  assert (OB : flat_map (fun a => match a with Bare [Var y] => filesIn y env' | _ => [] end) objs = []).
  { subst objs. destruct (tType t); try reflexivity; (generalize (rev libs); intros ks; induction ks as [|[n|n|p] ks IH]; cbn [flat_map app]; auto). }
  exists (flat_map (fun a => match a with Bare [Var y] => filesIn y env' | _ => [] end) (map v (groupNames t))). split.
  - assert (C : build env' ([(fst (typeArgs t), w (tName t) :: snd (typeArgs t) ++ map v (groupNames t) ++ objs)] ++ tail) =
      (textOf (w (tName t)), flat_map (fun a => match a with Bare [Var y] => filesIn y env' | _ => [] end) (snd (typeArgs t) ++ map v (groupNames t) ++ objs)) :: build env' tail).
    { unfold typeArgs. destruct (tType t); reflexivity. }
    rewrite C, ET. f_equal. rewrite !flat_map_app, OB, app_nil_r. f_equal; [apply textOf_bytes|]. unfold typeArgs. destruct (tType t); reflexivity.
  - intros p. rewrite in_flat_map. split.
    + intros (a & I & J). apply in_map_iff in I. destruct I as (y & <- & I). split; [intros X; rewrite X in I; contradiction|]. apply groupNames_in in I. subst y. exact J.
    + intros [N J]. destruct (groupNames t) as [|y l] eqn:E; [contradiction|]. assert (y = sourcesVar t) by (apply groupNames_in; rewrite E; left; reflexivity). subst y.
      exists (v (sourcesVar t)). split; [left; reflexivity|exact J].
Qed.
Lemma filesIn_in x env p : In p (filesIn x env) <-> In (x, p) env.
Proof.
  unfold filesIn. rewrite in_flat_map. split.
  - intros ([a b] & I & J). cbn [fst snd] in J. destruct (list_eq_dec Z.eq_dec a x); [|contradiction]. destruct J as [<-|[]]. subst. exact I.
  - intros I. exists (x, p). split; [exact I|]. cbn [fst snd]. destruct (list_eq_dec Z.eq_dec x x); [left; reflexivity|contradiction].
Qed.
Lemma allFiles_in t x p : In (x, p) (allFiles t) <-> x = sourcesVar t /\ fileOf t p.
Proof.
  unfold allFiles, fileOf, entries. rewrite in_flat_map. split.
  - intros (g & I & J). apply in_map_iff in J. destruct J as (y & [= <- <-] & J). split; [reflexivity|]. exists g, y. auto.
  - intros (-> & g & y & I & J & ->). exists g. split; [exact I|]. apply in_map_iff. exists y. auto.
Qed.
Lemma file_named t p : fileOf t p -> groupNames t <> [].
Proof.
  intros (g & x & I & _). unfold groupNames. destruct (tSources t); [|discriminate]. destruct (tOthers t); [destruct I|discriminate].
Qed.
Lemma build_all f : fBootstrap f = false -> forall ts libs env, length ts = length libs -> NoDup (map sourcesVar ts) ->
  (forall x p, In (x, p) env -> ~ In x (map sourcesVar ts)) ->
  Forall2 (fun t r => fst r = tName t /\ forall p, In p (snd r) <-> fileOf t p) ts (build env (allCommands f ts libs)).
Proof.
  intros B. induction ts as [|t ts IH]; intros [|l libs] env E N H; try discriminate E; [constructor|].
  cbn [allCommands]. destruct (build_target f t l env (allCommands f ts libs) B) as (fs & -> & F). cbn [map] in N. inversion N as [|? ? NI ND]; subst. constructor.
  - split; [reflexivity|]. cbn [snd]. intros p. rewrite F, filesIn_in, in_app_iff, allFiles_in. split.
    + intros (_ & [I|[_ I]]); [|exact I]. exfalso. apply (H _ _ I). left. reflexivity.
    + intros I. split; [eapply file_named; exact I|]. right. split; [reflexivity|exact I].
  - apply IH; [injection E as E; exact E|exact ND|]. intros x p I. apply in_app_iff in I. destruct I as [I|I].
    + intros J. apply (H _ _ I). right. exact J.
    + apply allFiles_in in I. destruct I as [-> _]. exact NI.
Qed.
Lemma Forall2_len {A B} (R : A -> B -> Prop) l m : Forall2 R l m -> length l = length m.
Proof. induction 1; cbn; congruence. Qed.
Lemma written_built f libs : plainFolder f libs -> fBootstrap f = false -> NoDup (map sourcesVar (fTargets f)) ->
  exists text cs, writeCMakeLists f = Some text /\ cmakeRead text = Some cs /\
    Forall2 (fun t r => fst r = tName t /\ forall p, In p (snd r) <-> fileOf t p) (fTargets f) (build [] cs).
Proof.
  intros P B N. destruct (written_read f libs P) as (text & W & R). exists text. eexists. split; [exact W|]. split; [exact R|].
  rewrite build_ignored.
  - apply build_all; auto. apply (Forall2_len (plainTarget f)). apply P.
  - unfold headCommands. rewrite B. cbn [app]. ign.
Qed.
