(* C81: projects are written so that CMake reads what was meant. *)
From Coq Require Import Lia ZifyBool ZifyNat String.
From Verif Require Import Txt CMakeModel CMakeSpec CMakeProofs.
Local Open Scope string_scope.
Local Open Scope list_scope.
Local Open Scope Z_scope.
Local Notation length := List.length.

(** A project whose names are words, whose source paths are any text without control characters (other than tabs
    and ends of lines) and dollars, and whose other paths are free of quotes and backslashes as well, is written,
    and CMake reads the commands of its targets in their order, with the paths that were given. *)
Theorem C81_commands_partial : forall f libs, plainFolder f libs ->
  exists text, writeCMakeLists f = Some text /\ cmakeRead text = Some (headCommands f ++ allCommands f (fTargets f) libs).
Proof. exact written_read. Qed.
Print Assumptions C81_commands_partial.

(** If the names of the targets differ by more than upper and lower case, every target is built from exactly the
    files of its groups. *)
Theorem C81_sources_partial : forall f libs, plainFolder f libs -> fBootstrap f = false -> NoDup (map sourcesVar (fTargets f)) ->
  exists text cs, writeCMakeLists f = Some text /\ cmakeRead text = Some cs /\
    Forall2 (fun t r => fst r = tName t /\ forall p, In p (snd r) <-> fileOf t p) (fTargets f) (build [] cs).
Proof. exact written_built. Qed.
Print Assumptions C81_sources_partial.

(** A path that is not normalized is not written. *)
Theorem C81_normalized : forall f t g p text, writeCMakeLists f = Some text -> In t (fTargets f) -> In g (tSources t ++ tOthers t) ->
  In p (srcRoot g :: srcFiles g) -> normal p = true.
Proof.
  intros f t g p text W T G P. unfold writeCMakeLists in W. destruct (_ && _); [|discriminate].
  destruct (mapM (writeTarget f) (fTargets f)) as [l|] eqn:M; [|discriminate]. clear W.
  assert (K : forall A B (h : A -> option B) xs ys, mapM h xs = Some ys -> forall x, In x xs -> exists y, h x = Some y).
  { intros A B h xs. induction xs as [|x xs IH]; intros ys E z I; [destruct I|]. cbn in E. destruct (h x) eqn:X; [|discriminate].
    destruct (mapM h xs) eqn:Y; [|discriminate]. destruct I as [<-|I]; [eauto|]. eapply IH; [reflexivity|exact I]. }
  destruct (K _ _ _ _ _ M t T) as [y E]. unfold writeTarget in E.
  destruct (mapM (sourceGroup f (txt "SetSourceFolders") t) (tSources t)) eqn:A; [|discriminate].
  destruct (mapM (sourceGroup f (txt "SetNonParticipatingFiles") t) (tOthers t)) eqn:B; [|discriminate]. clear E.
  assert (Q : exists name z, sourceGroup f name t g = Some z).
  { apply in_app_or in G. destruct G as [G|G]; [destruct (K _ _ _ _ _ A g G) as [z Z]|destruct (K _ _ _ _ _ B g G) as [z Z]]; eauto. }
  destruct Q as (name & z & Q). unfold sourceGroup in Q. destruct (filterPath f (srcRoot g)) eqn:R; [|discriminate].
  destruct (mapM (filterPath f) (srcFiles g)) eqn:S1; [|discriminate]. destruct P as [<-|P].
  - unfold filterPath in R. destruct (normal (srcRoot g)); [reflexivity|discriminate].
  - destruct (K _ _ _ _ _ S1 p P) as [u U]. unfold filterPath in U. destruct (normal p); [reflexivity|discriminate].
Qed.
Print Assumptions C81_normalized.

(** A project with a library (whose file names hold a quote and spaces), an executable linked with it and headers. *)
Definition exLib := mkTarget (txt "my-lib") Lib [mkSources (txt "/src/my lib") [txt "a.cpp"; txt "say " ++ [34] ++ txt "hi" ++ [34] ++ txt ".cpp"]] [mkSources (txt "/src/doc") [txt "read.me"]]
  (txt "src/Pre.cpp") (txt "Pre.h") [txt "exceptions"] [txt "/src/inc"; txt "/src/x"] [(txt "A", txt "1"); (txt "B", txt "")] [] [] [].
Definition exExe := mkTarget (txt "app") EXE [mkSources (txt "/src/app") [txt "main.cpp"]] [] [] [] [] [txt "/src/inc"] []
  [txt "${ZLIB}"; txt "/usr/lib/libz.a"; txt "$<TARGET_OBJECTS:my-lib>"] [txt "/usr/bin/z.dll"] [txt "Cocoa"].
Definition exHeaders := mkTarget (txt "inc") HeaderOnly [mkSources (txt "/src/inc") [txt "a.h"]] [] [] [] [] [] [] [] [] [].
Definition exFolder (b : bool) := mkFolder (txt "proj") (txt "/build/") [exLib; exExe; exHeaders] (txt "/src/") b (txt "/ws/Helper.cmake").
Definition exLibs := [[]; [InVariable (txt "ZLIB"); File (txt "/usr/lib/libz.a"); Objects (txt "my-lib")]; []].
Lemma safe_check s : s <> [] -> forallb (fun c => inVar c && negb (c =? 47)) s = true -> safeName s.
Proof. intros N H. split; [exact N|]. apply Forall_forall. intros c I. rewrite forallb_forall in H. specialize (H c I). apply andb_true_iff in H. destruct H as [A B]. split; [exact A|lia]. Qed.
Lemma plain_check s : forallb (fun c => (32 <=? c) && (c <? 256) && negb (c =? 34) && negb (c =? 92) && negb (c =? 36)) s = true -> plain s.
Proof. intros H. apply Forall_forall. intros c I. rewrite forallb_forall in H. specialize (H c I). lia. Qed.
Lemma escapable_check s : forallb (fun c => ((32 <=? c) && (c <? 128) || (c =? 9) || (c =? 10) || (c =? 13)) && negb (c =? 36)) s = true -> escapable s.
Proof.
  intros H. rewrite forallb_forall in H. split.
  - apply Forall_forall. intros c I. specialize (H c I). lia.
  - rewrite <- (app_nil_r s). apply no_overlong_word.
    + apply Forall_forall. intros c I. specialize (H c I). lia.
    + intros pre l post p E. destruct pre, l; try discriminate E. intros X. inversion X.
Qed.
Ltac safe := apply safe_check; [discriminate|vm_compute; reflexivity].
Ltac each := cbn; intros; repeat match goal with H : _ \/ _ |- _ => destruct H as [<-|H] | H : False |- _ => destruct H | H : ?a = ?b |- _ => subst end.
Ltac inall I := cbn in I; repeat (destruct I as [<-|I]; [|]); try (destruct I).
Lemma ex_lib_plain b : plainTarget (exFolder b) exLib [].
Proof.
  split; [safe|]. split; [|split; [|split; [|split; [|split; [reflexivity|split; [|split]]]]]].
  - intros g p I J. inall I; inall J; (split; [vm_compute; reflexivity|apply escapable_check; vm_compute; reflexivity]).
  - intros _. split; [vm_compute; reflexivity|]. split; apply plain_check; vm_compute; reflexivity.
  - intros p I. inall I; (split; [vm_compute; reflexivity|apply plain_check; vm_compute; reflexivity]).
  - intros d I. inall I; (split; [apply plain_check; vm_compute; reflexivity|]; split; [apply plain_check; vm_compute; reflexivity|]; split; vm_compute; intuition discriminate).
  - intros k [].
  - intros p [].
  - intros fw [].
Qed.
Lemma ex_exe_plain b : plainTarget (exFolder b) exExe [InVariable (txt "ZLIB"); File (txt "/usr/lib/libz.a"); Objects (txt "my-lib")].
Proof.
  split; [safe|]. split; [|split; [|split; [|split; [|split; [reflexivity|split; [|split]]]]]].
  - intros g p I J. inall I; inall J; (split; [vm_compute; reflexivity|apply escapable_check; vm_compute; reflexivity]).
  - intros X. elim X. reflexivity.
  - intros p I. inall I; (split; [vm_compute; reflexivity|apply plain_check; vm_compute; reflexivity]).
  - intros d [].
  - intros k I. inall I; [safe| |safe]. split; [vm_compute; reflexivity|apply plain_check; vm_compute; reflexivity].
  - intros p I. inall I. apply plain_check; vm_compute; reflexivity.
  - intros fw I. inall I. safe.
Qed.
Lemma ex_headers_plain b : plainTarget (exFolder b) exHeaders [].
Proof.
  split; [safe|]. split; [|split; [|split; [|split; [|split; [reflexivity|split; [|split]]]]]].
  - intros g p I J. inall I; inall J; (split; [vm_compute; reflexivity|apply escapable_check; vm_compute; reflexivity]).
  - intros X. elim X. reflexivity.
  - intros p [].
  - intros d [].
  - intros k [].
  - intros p [].
  - intros fw [].
Qed.
Example C81_ex : forall b, plainFolder (exFolder b) exLibs /\ NoDup (map sourcesVar (fTargets (exFolder b))).
Proof.
  intros b. split.
  - split; [safe|]. split; [vm_compute; reflexivity|]. split; [vm_compute; reflexivity|]. split; [apply escapable_check; vm_compute; reflexivity|].
    constructor; [apply ex_lib_plain|]. constructor; [apply ex_exe_plain|]. constructor; [apply ex_headers_plain|]. constructor.
  - vm_compute. repeat (apply NoDup_cons; [cbn [In]; intuition discriminate|]). apply NoDup_nil.
Qed.
Example C81_built_ex : match writeCMakeLists (exFolder false) with Some text => match cmakeRead text with Some cs => build [] cs | None => [] end | None => [] end =
  [(txt "my-lib", [txt "/src/my lib/a.cpp"; txt "/src/my lib/say " ++ [34] ++ txt "hi" ++ [34] ++ txt ".cpp"; txt "/src/doc/read.me"]);
   (txt "app", [txt "/src/app/main.cpp"]); (txt "inc", [txt "/src/inc/a.h"])].
Proof. vm_compute. reflexivity. Qed.

(** Paths of include directories are not escaped: with a quote in one the file cannot be read. *)
Definition libWith (name : list Z) (src : list sources) (inc : list (list Z)) := mkTarget name Lib src [] [] [] [] inc [] [] [] [].
Definition one (ts : list target) := mkFolder (txt "proj") (txt "/build/") ts (txt "/src/") false (txt "/ws/Helper.cmake").
Theorem C81_include_refuted : exists p text, normal p = true /\ escapable p /\
  writeCMakeLists (one [libWith (txt "a") [] [p]]) = Some text /\ cmakeRead text = None.
Proof.
  exists (txt "/a" ++ [34] ++ txt "b"). eexists. split; [vm_compute; reflexivity|]. split; [apply escapable_check; vm_compute; reflexivity|].
  split; [reflexivity|vm_compute; reflexivity].
Qed.
Print Assumptions C81_include_refuted.
(** And with a backslash in it another directory is read, without any error. *)
Theorem C81_backslash_refuted : exists p p' text cs, normal p = true /\ escapable p /\ p' <> p /\
  writeCMakeLists (one [libWith (txt "a") [] [p]]) = Some text /\ cmakeRead text = Some cs /\
  In (txt "target_include_directories", [w (txt "a"); w (txt "PRIVATE"); q p']) cs.
Proof.
  exists (txt "/a\n"), (txt "/a" ++ [10]). eexists. eexists. split; [vm_compute; reflexivity|]. split; [apply escapable_check; vm_compute; reflexivity|].
  split; [discriminate|]. split; [reflexivity|]. split; [vm_compute; reflexivity|]. vm_compute. right; right; right; right; right; right. left. reflexivity.
Qed.
Print Assumptions C81_backslash_refuted.
(** A source file whose name looks like the reference of a variable is read as the reference. *)
Theorem C81_dollar_refuted : exists p text cs, normal p = true /\
  writeCMakeLists (one [libWith (txt "a") [mkSources (txt "/s") [p]] []]) = Some text /\ cmakeRead text = Some cs /\
  In (txt "SetSourceFolders", [w (txt "A_SOURCES"); q (txt "/s"); Quoted [Var (txt "x")]]) cs.
Proof.
  exists (txt "${x}"). eexists. eexists. split; [vm_compute; reflexivity|]. split; [reflexivity|]. split; [vm_compute; reflexivity|].
  vm_compute. right; right; right; right. left. reflexivity.
Qed.
Print Assumptions C81_dollar_refuted.
(** A control character in the name of a source file is escaped in a way that CMake does not know. *)
Theorem C81_control_refuted : exists p text, normal p = true /\
  writeCMakeLists (one [libWith (txt "a") [mkSources (txt "/s") [p]] []]) = Some text /\ cmakeRead text = None.
Proof. exists [97; 27]. eexists. split; [vm_compute; reflexivity|]. split; [reflexivity|]. vm_compute. reflexivity. Qed.
Print Assumptions C81_control_refuted.
(** Two targets whose names differ in case only share a variable: the second gets the files of the first as well. *)
Theorem C81_case_refuted : exists text cs,
  writeCMakeLists (one [libWith (txt "Gui") [mkSources (txt "/s") [txt "a.cpp"]] []; libWith (txt "gui") [mkSources (txt "/t") [txt "b.cpp"]] []]) = Some text /\
  cmakeRead text = Some cs /\ build [] cs = [(txt "Gui", [txt "/s/a.cpp"]); (txt "gui", [txt "/s/a.cpp"; txt "/t/b.cpp"])].
Proof. eexists. eexists. split; [reflexivity|]. split; vm_compute; reflexivity. Qed.
Print Assumptions C81_case_refuted.
(** A target with two groups of sources lists every file twice. *)
Theorem C81_twice_refuted : exists text cs,
  writeCMakeLists (one [libWith (txt "a") [mkSources (txt "/s") [txt "a.cpp"]; mkSources (txt "/t") [txt "b.cpp"]] []]) = Some text /\
  cmakeRead text = Some cs /\ build [] cs = [(txt "a", [txt "/s/a.cpp"; txt "/t/b.cpp"; txt "/s/a.cpp"; txt "/t/b.cpp"])].
Proof. eexists. eexists. split; [reflexivity|]. split; vm_compute; reflexivity. Qed.
Print Assumptions C81_twice_refuted.

(** A definition whose name or value holds an equals sign is not written. *)
Theorem C81_definitions : forall f t d text, writeCMakeLists f = Some text -> In t (fTargets f) -> tType t <> HeaderOnly ->
  In d (tDefines t) -> ~ In 61 (fst d) /\ ~ In 61 (snd d).
Proof.
  intros f t d text W T H D. unfold writeCMakeLists in W. destruct (_ && _); [|discriminate].
  destruct (mapM (writeTarget f) (fTargets f)) as [l|] eqn:M; [|discriminate]. clear W.
  assert (K : forall A B (h : A -> option B) xs ys, mapM h xs = Some ys -> forall x, In x xs -> exists y, h x = Some y).
  { intros A B h xs. induction xs as [|x xs IH]; intros ys E z I; [destruct I|]. cbn in E. destruct (h x) eqn:X; [|discriminate].
    destruct (mapM h xs) eqn:Y; [|discriminate]. destruct I as [<-|I]; [eauto|]. eapply IH; [reflexivity|exact I]. }
  destruct (K _ _ _ _ _ M t T) as [y E]. unfold writeTarget in E.
  destruct (mapM (sourceGroup f (txt "SetSourceFolders") t) (tSources t)); [|discriminate].
  destruct (mapM (sourceGroup f (txt "SetNonParticipatingFiles") t) (tOthers t)); [|discriminate].
  destruct (precompiled f t); [|discriminate]. destruct (includeDirs f t); [|discriminate].
  destruct (defines t) as [s|] eqn:F; [|discriminate]. clear E. unfold defines in F.
  assert (X : isHeaderOnly t = false) by (unfold isHeaderOnly; destruct (tType t); congruence). rewrite X in F.
  destruct (tDefines t) as [|d0 ds] eqn:L; [destruct D|]. rewrite <- L in *.
  destruct (mapM _ (tDefines t)) eqn:Q; [|discriminate]. destruct (K _ _ _ _ _ Q d D) as [u U]. cbv beta in U.
  destruct (noEquals (fst d) && noEquals (snd d)) eqn:B; [|discriminate]. apply andb_true_iff in B. destruct B as [B1 B2].
  assert (N : forall s, noEquals s = true -> ~ In 61 s).
  { intros s0 N I. unfold noEquals in N. apply negb_true_iff in N. assert (existsb (Z.eqb 61) s0 = true) by (apply existsb_exists; exists 61; auto). congruence. }
  split; apply N; assumption.
Qed.
Print Assumptions C81_definitions.
Example C81_definitions_ex : exists text, writeCMakeLists (exFolder false) = Some text /\ In exLib (fTargets (exFolder false)) /\ tDefines exLib <> [].
Proof. eexists. split; [vm_compute; reflexivity|]. split; [left; reflexivity|discriminate]. Qed.
