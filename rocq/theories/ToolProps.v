(** * C82: plytool does what its command line asks for, or says what is wrong with it *)
From Coq Require Import String.
From Verif Require Import Txt StringViewProofs ToolModel ToolSpec ToolProofs.
Local Open Scope string_scope.
Local Open Scope list_scope.
Local Open Scope Z_scope.
Local Notation length := List.length.

(** C82 (partial: the arguments are not empty, the command is not [rpc], and the second word of an [extern] command is
    not the beginning of two commands; see the refutations below). A command line is carried out as [a] exactly if its
    words and its options, wherever they stand and in whatever order, ask for [a], and there is a build folder if one
    is needed. Every other command line ends with an error message. *)
Theorem C82_commands_partial hasFolder prog args a :
  ~ In [] args -> hd_error (words args) <> Some (txt "rpc") -> ~ ambiguous args ->
  ((exists c, plytool hasFolder (prog :: args) = Ok a c) <-> means (words args) (options args) a /\ (needsFolder a = true -> hasFolder = true)).
Proof. exact (tool_read hasFolder prog args a). Qed.
Print Assumptions C82_commands_partial.

(** C82: what a command line means is accepted without the last two conditions, and is its only reading. *)
Theorem C82_accepted hasFolder prog args a :
  ~ In [] args -> means (words args) (options args) a -> (needsFolder a = true -> hasFolder = true) -> exists c, plytool hasFolder (prog :: args) = Ok a c.
Proof. intros N M F. exists done. eapply dispatch_complete; [apply start_st; exact N|exact M|exact F]. Qed.
Print Assumptions C82_accepted.
Theorem C82_one_meaning args a b : ~ In [] args -> means (words args) (options args) a -> means (words args) (options args) b -> a = b.
Proof.
  intros N A B. pose proof (dispatch_complete true _ _ _ _ (start_st [] args N) A (fun _ => eq_refl)) as X.
  pose proof (dispatch_complete true _ _ _ _ (start_st [] args N) B (fun _ => eq_refl)) as Y. congruence.
Qed.
Print Assumptions C82_one_meaning.

(** C82: for every command line whatever, no assertion of the command line fails, and unless the command is [rpc] every
    argument was looked at when the program ends without an error message. *)
Theorem C82_no_assertion hasFolder argv :
  plytool hasFolder argv <> Asserts /\ (forall a c, plytool hasFolder argv = Ok a c -> a <> Rpc -> endsWell (plytool hasFolder argv) = true /\ skipped c = []).
Proof.
  assert (H : fresh (start argv)) by reflexivity. unfold plytool. pose proof (dispatch_skipped hasFolder (start argv) H) as Q.
  destruct (dispatch_good hasFolder (start argv) H) as [E|G].
  - rewrite E in *. split; [discriminate|]. intros a c X D. injection X as <- <-. elim D. reflexivity.
  - destruct (dispatch hasFolder (start argv)) as [x c'|e|]; cbn in G; try (split; [discriminate|]); try contradiction.
    + intros a c X D. injection X as <- <-. split; [exact G|]. destruct Q as [Q|Q]; [injection Q as -> _; elim D; reflexivity|exact Q].
    + intros a c X. discriminate X.
Qed.
Print Assumptions C82_no_assertion.

(** Options may stand anywhere. *)
Example C82_example :
  let args := [txt "--auto"; txt "bui"; txt "--config=Debug"; txt "hello"; txt "--shared"] in
  ~ In [] args /\ hd_error (words args) <> Some (txt "rpc") /\ ~ ambiguous args /\
  means (words args) (options args) (Build (mkBuild (txt "hello") (txt "Debug") false true true)) /\
  exists c, plytool false (txt "plytool" :: args) = Ok (Build (mkBuild (txt "hello") (txt "Debug") false true true)) c.
Proof.
  assert (M : means [txt "bui"; txt "hello"] [txt "--auto"; txt "--config=Debug"; txt "--shared"] (Build (mkBuild (txt "hello") (txt "Debug") false true true))).
  { apply (m_build (txt "bui") [txt "hello"] (txt "hello") _ [txt "--config=Debug"] (txt "Debug") false true true).
    - split; [cbn; auto with arith|]. split; [exists (txt "ld"); reflexivity|]. intros m I D [r B]. exfalso. cbn in I. repeat (destruct I as [<-|I]; [solve [discriminate B | apply D; reflexivity]|]). destruct I.
    - constructor.
    - apply (c_given (txt "Debug")).
    - auto.
    - cbn. apply perm_swap. }
  cbv zeta. split; [cbn; intuition discriminate|]. split; [discriminate|]. split.
  { intros (c & s & m & m' & X & [r B] & _). injection X as <-. discriminate B. }
  split; [exact M|]. eexists. reflexivity.
Qed.
(** Wrong command lines are refused: an option twice, an option of another command, a word too many, no build folder. *)
Example C82_refused :
  plytool true [txt "plytool"; txt "build"; txt "--auto"; txt "--auto"] = Fatal (UnrecognizedOption (txt "--auto")) /\
  plytool true [txt "plytool"; txt "build"; txt "--shared"] = Fatal (UnrecognizedOption (txt "--shared")) /\
  plytool true [txt "plytool"; txt "folder"; txt "list"; txt "x"] = Fatal (UnexpectedToken (txt "x")) /\
  plytool false [txt "plytool"; txt "target"; txt "list"] = Fatal NoFolder /\
  plytool true [txt "plytool"; txt "b"] = Fatal (UnrecognizedCommand (txt "b")).
Proof. repeat split. Qed.

(** REFUTED: an empty argument is taken for the end of the words: the words before it are obeyed, every argument behind it
    is ignored, whatever it is. *)
Theorem C82_empty_refuted prog name args :
  hd_error name <> Some 45 -> name <> [] -> exists c,
  plytool true (prog :: txt "target" :: txt "remove" :: name :: [] :: args) = Ok (TargetRemove name) c.
Proof.
  intros H N. destruct name as [|x name]; [elim N; reflexivity|]. assert (E : sv_startsWith (x :: name) (txt "-") = false).
  { unfold sv_startsWith. cbn. destruct (x =? 45) eqn:X; [|cbn; try reflexivity].
    - apply Z.eqb_eq in X. subst x. elim H. reflexivity. }
  unfold plytool, dispatch, start, readToken. cbn [tl rest readLoop skipped finalized].
  change (sv_startsWith (txt "target") (txt "-")) with false. cbv iota beta zeta.
  change (isNil (txt "target")) with false. change (bytes_eqb (txt "target") (txt "rpc")) with false.
  change (prefixMatch (txt "target") (txt "folder")) with false. change (prefixMatch (txt "target") (txt "target")) with true. cbv iota.
  unfold command_target, readToken. cbn [tl rest readLoop skipped finalized].
  change (sv_startsWith (txt "remove") (txt "-")) with false. cbv iota beta zeta.
  change (isNil (txt "remove")) with false.
  change (prefixMatch (txt "remove") (txt "list")) with false. change (prefixMatch (txt "remove") (txt "add")) with false. change (prefixMatch (txt "remove") (txt "remove")) with true. cbv iota.
  unfold named, readName, plain, ensureTerminated, readToken. cbn [rest readLoop skipped finalized]. rewrite E. cbn [isNil rest skipped finalized readLoop].
  change (sv_startsWith [] (txt "-")) with false. cbv iota beta zeta. eexists. reflexivity.
Qed.
Print Assumptions C82_empty_refuted.
(** REFUTED: the beginning of two [extern] commands is taken for the first one instead of being refused. *)
Theorem C82_ambiguous_refuted : exists n c c',
  plytool true [txt "plytool"; txt "extern"; txt "in"; n] = Ok (ExternInfo n) c /\ begins (txt "in") (txt "install") /\
  plytool true [txt "plytool"; txt "extern"; txt "selec"; n] = Ok (ExternSelect n false) c' /\ begins (txt "selec") (txt "selected").
Proof. exists (txt "libpng"). eexists. eexists. repeat split; [exists (txt "stall")|exists (txt "ted")]; reflexivity. Qed.
Print Assumptions C82_ambiguous_refuted.
(** REFUTED: [rpc] takes no notice of the arguments behind it, and the assertion at the end of [main] fails. *)
Theorem C82_rpc_refuted hasFolder prog args : (exists c, plytool hasFolder (prog :: txt "rpc" :: args) = Ok Rpc c) /\ endsWell (plytool hasFolder (prog :: txt "rpc" :: args)) = false.
Proof. split; [eexists|]; reflexivity. Qed.
Print Assumptions C82_rpc_refuted.

(** ** Settings *)
(** C82: adding a target puts it last among the root targets unless it is there, makes it shared if that is asked for,
    makes it the active one, and changes nothing else. The settings are saved exactly if they changed. *)
Theorem C82_add makeShared n s :
  fst (addTarget makeShared n s) =
    mkSettings (if in_dec (list_eq_dec Z.eq_dec) n (roots s) then roots s else roots s ++ [n])
      (if makeShared then if in_dec (list_eq_dec Z.eq_dec) n (shared s) then shared s else shared s ++ [n] else shared s) n (selectors s) /\
  (snd (addTarget makeShared n s) = false <-> fst (addTarget makeShared n s) = s).
Proof. exact (add_spec makeShared n s). Qed.
Print Assumptions C82_add.
(** C82: however targets are added and removed, no target is listed twice; removing takes away that target and keeps the
    others in order, and is refused exactly if the target is not there. *)
Inductive step : settings -> settings -> Prop :=
| s_add sh n s : step s (fst (addTarget sh n s))
| s_remove n s s' : removeTarget n s = Some s' -> step s s'
| s_select f n s s' : selectProvider f n s = Some s' -> step s s'.
Inductive reached : settings -> Prop :=
| r_new : reached (mkSettings [] [] [] [])
| r_step s s' : reached s -> step s s' -> reached s'.
Theorem C82_unique s : reached s -> NoDup (roots s) /\ NoDup (shared s).
Proof.
  induction 1 as [|s s' _ [A B] St]; [split; constructor|]. destruct St as [sh n s|n s s' E|f n s s' E].
  - rewrite (proj1 (add_spec sh n s)). cbn [roots shared]. split; [apply withName_nodup; exact A|]. destruct sh; [apply withName_nodup|]; exact B.
  - unfold removeTarget in E. pose proof (erase_spec n (roots s)) as Q. destruct (eraseFirst n (roots s)) as [l|]; [|discriminate]. injection E as <-. cbn [roots shared].
    destruct Q as (a & b & R & _ & ->). rewrite R in A. split; [exact (NoDup_remove_1 _ _ _ A)|exact B].
  - unfold selectProvider in E. destruct (f n); [|discriminate]. injection E as <-. split; assumption.
Qed.
Print Assumptions C82_unique.
Theorem C82_remove n s : reached s ->
  match removeTarget n s with
  | Some s' => In n (roots s) /\ roots s' = filter (fun x => if list_eq_dec Z.eq_dec x n then false else true) (roots s) /\ ~ In n (roots s') /\ selectors s' = selectors s
  | None => ~ In n (roots s)
  end.
Proof.
  intros R. destruct (C82_unique s R) as [U _]. unfold removeTarget. pose proof (erase_spec n (roots s)) as Q. destruct (eraseFirst n (roots s)) as [l|]; [|exact Q].
  cbn [roots selectors]. destruct Q as (a & b & E & NA & ->). rewrite E in U |- *. pose proof (NoDup_remove_2 _ _ _ U) as NI.
  split; [apply in_or_app; right; left; reflexivity|]. split; [|split; [exact NI|reflexivity]].
  assert (K : forall l, ~ In n l -> filter (fun x => if list_eq_dec Z.eq_dec x n then false else true) l = l).
  { induction l as [|x l IH]; intros H; [reflexivity|]. cbn [filter]. destruct (list_eq_dec Z.eq_dec x n) as [X|X]; [elim H; left; exact X|]. rewrite IH; [reflexivity|]. intros X'. apply H. right. exact X'. }
  rewrite filter_app. cbn [filter]. destruct (list_eq_dec Z.eq_dec n n) as [_|X]; [|elim X; reflexivity]. rewrite (K a), (K b); [reflexivity| |].
  - intros X. apply NI, in_or_app. right. exact X.
  - exact NA.
Qed.
Print Assumptions C82_remove.
(** C82: after a provider is selected it is the only one selected for its extern, and the providers of other externs stay, in order. *)
Theorem C82_select externOf n e s s' : externOf n = Some e -> selectProvider externOf n s = Some s' ->
  filter (fun x => match externOf x with Some e' => e' =? e | None => false end) (selectors s') = [n] /\
  (forall q, (forall x, q x = true -> externOf x <> Some e) -> filter q (selectors s') = filter q (selectors s)) /\
  roots s' = roots s /\ shared s' = shared s /\ active s' = active s.
Proof.
  intros E Hs. unfold selectProvider in Hs. rewrite E in Hs. injection Hs as <-. cbn [selectors roots shared active]. rewrite same_spec. split; [|split; [|auto]].
  - rewrite filter_app. cbn [filter]. rewrite E, Z.eqb_refl.
    rewrite (filter_none (fun x => match externOf x with Some e' => e' =? e | None => false end)); [reflexivity|].
    intros x I. apply filter_In in I. destruct I as [_ I]. destruct (externOf x) as [e'|]; [|reflexivity]. destruct (e' =? e); [discriminate I|reflexivity].
  - intros q H. rewrite filter_app. cbn [filter]. destruct (q n) eqn:Q; [elim (H n Q); exact E|]. rewrite app_nil_r.
    apply filter_sub. intros x X. pose proof (H x X) as Y. destruct (externOf x) as [e'|]; [|reflexivity]. destruct (e' =? e) eqn:Z; [|reflexivity]. apply Z.eqb_eq in Z. subst e'. elim Y. reflexivity.
Qed.
Print Assumptions C82_select.
Example C82_settings :
  let externOf n := if list_eq_dec Z.eq_dec n (txt "png.brew") then Some 1 else if list_eq_dec Z.eq_dec n (txt "png.conan") then Some 1 else if list_eq_dec Z.eq_dec n (txt "zlib.apt") then Some 2 else None in
  exists s, reached s /\ roots s = [txt "a"; txt "b"] /\ active s = txt "a" /\ selectors s = [txt "zlib.apt"; txt "png.conan"].
Proof.
  cbv zeta. set (f := fun n => if list_eq_dec Z.eq_dec n (txt "png.brew") then Some 1 else if list_eq_dec Z.eq_dec n (txt "png.conan") then Some 1 else if list_eq_dec Z.eq_dec n (txt "zlib.apt") then Some 2 else None).
  eexists. split; [|split; [|split]].
  - eapply r_step; [eapply r_step; [eapply r_step; [eapply r_step; [eapply r_step; [eapply r_step; [exact r_new|]|]|]|]|]|].
    + apply (s_add false (txt "a")).
    + apply (s_add true (txt "b")).
    + apply (s_add false (txt "a")).
    + apply (s_select f (txt "png.brew")). reflexivity.
    + apply (s_select f (txt "zlib.apt")). reflexivity.
    + apply (s_select f (txt "png.conan")). reflexivity.
  - reflexivity.
  - reflexivity.
  - reflexivity.
Qed.
(** REFUTED: a removed target stays the active one, and stays shared: added again without [--shared] it is shared. *)
Theorem C82_removed_refuted n s s' : roots s = [] -> removeTarget n (fst (addTarget true n s)) = Some s' ->
  ~ In n (roots s') /\ active s' = n /\ In n (shared s') /\ In n (shared (fst (addTarget false n s'))).
Proof.
  intros R E. rewrite (proj1 (add_spec true n s)) in E. rewrite R in E. unfold removeTarget in E. cbn [roots withName in_dec] in E.
  unfold withName at 1 in E. cbn [in_dec app eraseFirst] in E.
  destruct (in_dec (list_eq_dec Z.eq_dec) n []) as [[]|_] in E. cbn [app eraseFirst] in E. rewrite (proj2 (bytes_eqb_eq n n) eq_refl) in E. injection E as <-. cbn [roots active shared].
  assert (I : In n (withName (shared s) n)) by (unfold withName; destruct (in_dec _ n (shared s)); [assumption|apply in_or_app; right; left; reflexivity]).
  split; [intros []|]. split; [reflexivity|]. split; [exact I|]. rewrite (proj1 (add_spec false n _)). exact I.
Qed.
Print Assumptions C82_removed_refuted.
Example C82_removed_example : removeTarget (txt "a") (fst (addTarget true (txt "a") (mkSettings [] [] [] []))) = Some (mkSettings [] [txt "a"] (txt "a") []).
Proof. reflexivity. Qed.
