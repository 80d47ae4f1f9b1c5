(* C88: the repos of a workspace are loaded in the order of their dependencies. *)
From Coq Require Import String.
From Verif Require Import Base Txt NamesModel NamesProofs LoadModel LoadSpec LoadProofs.
Local Open Scope string_scope.
Local Open Scope list_scope.
Local Open Scope Z_scope.
Local Notation length := List.length.

(** A workspace of four repos: the game needs the engine and the tools, both of which need the base. *)
Definition exInfo (n : name) : infoFile :=
  if name_eqb n (txt "game") then DependsOn [txt "tools"; txt "engine"]
  else if name_eqb n (txt "base") then NoInfo else DependsOn [txt "base"].
Definition exDlls : list name := [txt "game"; txt "base"; txt "engine"; txt "tools"].

(** Loading ends, also when dependencies are circular. *)
Theorem C88_ends : forall dlls info dll, create dlls info dll <> Deep.
Proof. intros dlls info dll. pose proof (create_ok dlls info dll) as H. destruct (create dlls info dll); congruence || destruct H. Qed.
Print Assumptions C88_ends.

(** The process ends with an error only if some repo cannot be loaded, and if none of those repos needs a malformed file it
    always does. *)
Theorem C88_completes : forall dlls info dll,
  (forall why, create dlls info dll = Ends why -> exists n, In n dlls /\ ~ loadable dlls info dll n) /\
  (forall s, create dlls info dll = Returns tt s -> forall n, In n dlls -> ~ spoiled info n -> loadable dlls info dll n).
Proof.
  intros dlls info dll. pose proof (create_ok dlls info dll) as H. split.
  - intros why E. rewrite E in H. exact H.
  - intros s E n N Sp. rewrite E in H. destruct H as [V I]. destruct (i_where _ _ _ _ _ V n (I n N)) as [R|[R|R]]; [|destruct R|contradiction].
    apply in_split in R. destruct R as (l1 & l2 & R). apply (i_order _ _ _ _ _ V l1 n l2 R).
Qed.
Print Assumptions C88_completes.

(** After loading, each repo that needs no malformed file has been registered, exactly once, with the children that it
    declares, in that order; nothing else is in the registry, and one error has been logged for each malformed file. *)
Theorem C88_loaded : forall dlls info dll s, create dlls info dll = Returns tt s ->
  NoDup (stRegistered s) /\ (forall n, In n (stRegistered s) -> In n dlls) /\
  (forall n, In n dlls -> ~ spoiled info n -> In n (stRegistered s)) /\
  (forall n, In n (stRegistered s) -> childRepos s n = dependencies info n) /\
  (forall n, isThere s n = true <-> In n dlls) /\
  NoDup (stErrors s) /\ (forall n, In n (stErrors s) <-> In n dlls /\ info n = Malformed).
Proof.
  intros dlls info dll s E. pose proof (create_ok dlls info dll) as H. rewrite E in H. destruct H as [V I].
  split; [apply (i_once _ _ _ _ _ V)|]. split; [intros n R; apply (i_dlls _ _ _ _ _ V), (i_reg _ _ _ _ _ V), R|]. split; [|split; [|split; [|split]]].
  - intros n N Sp. destruct (i_where _ _ _ _ _ V n (I n N)) as [R|[R|R]]; [exact R|destruct R|contradiction].
  - intros n R. apply in_split in R. destruct R as (l1 & l2 & R). apply (i_order _ _ _ _ _ V l1 n l2 R).
  - intros n. rewrite isThere_iff. split; [apply (i_dlls _ _ _ _ _ V)|apply I].
  - apply (i_told _ _ _ _ _ V).
  - intros n. rewrite (i_errs _ _ _ _ _ V). split; intros [A B]; split; auto. apply (i_dlls _ _ _ _ _ V), A.
Qed.
Print Assumptions C88_loaded.

(** A repo is registered after each of its dependencies, unless that one needs it in turn. *)
Theorem C88_order_partial : forall dlls info dll s n d, create dlls info dll = Returns tt s ->
  In n dlls -> ~ spoiled info n -> In d (dependencies info n) -> ~ needs info d n ->
  before (stRegistered s) d n.
Proof.
  intros dlls info dll s n d E N Sp D Nn. pose proof (create_ok dlls info dll) as H. rewrite E in H. destruct H as [V I].
  destruct (i_where _ _ _ _ _ V n (I n N)) as [R|[R|R]]; [|destruct R|contradiction].
  apply in_split in R. destruct R as (l1 & l2 & R). destruct (i_order _ _ _ _ _ V l1 n l2 R) as (_ & _ & O).
  destruct (O d D) as [X|[X|X]]; [|contradiction|exfalso; apply Sp; eapply spoiled_up; eauto].
  apply in_split in X. destruct X as (l3 & l4 & X). exists l3, l4, l2. rewrite R, X, <- app_assoc. reflexivity.
Qed.
Print Assumptions C88_order_partial.

Example C88_ex : exists s, create exDlls exInfo (fun _ => true) = Returns tt s /\
  stRegistered s = [txt "base"; txt "tools"; txt "engine"; txt "game"] /\ childRepos s (txt "game") = [txt "tools"; txt "engine"] /\
  (forall n, In n exDlls -> ~ spoiled exInfo n) /\ ~ needs exInfo (txt "base") (txt "game").
Proof.
  eexists. split; [reflexivity|]. split; [reflexivity|]. split; [reflexivity|]. split.
  - intros n _ (b & _ & M). unfold exInfo in M. destruct (name_eqb b (txt "game")); [discriminate|]. destruct (name_eqb b (txt "base")); discriminate.
  - intros X. inversion X as [a|a b c B R]; subst. destruct B.
Qed.
Example C88_missing_ex : create [txt "a"] (fun _ => DependsOn [txt "b"]) (fun _ => true) = Ends (NoSuchRepo (txt "a") (txt "b")) /\
  create [txt "a"; txt "b"] (fun n => if name_eqb n (txt "a") then DependsOn [txt "b"; txt "b"] else NoInfo) (fun _ => true) = Ends (Duplicate (txt "a") (txt "b")).
Proof. split; reflexivity. Qed.

Ltac runs := repeat (progress (unfold childRepos, insert, appendChild, register, isThere, logError, loadDll; cbn -[name_eqb]; repeat match goal with
  | |- context [name_eqb ?x ?x] => rewrite (name_eqb_refl x)
  | H : name_eqb ?x ?y = false |- context [name_eqb ?x ?y] => rewrite H
  | H : ?f ?x = DependsOn _ |- context [?f ?x] => rewrite H
  | H : ?f ?x = Malformed |- context [?f ?x] => rewrite H
  end)).

(** Circular dependencies are not reported: of two repos that need each other, the second is registered before its
    dependency, and both are loaded. *)
Theorem C88_circular_refuted : forall a b, a <> b ->
  let info := fun n => if name_eqb n a then DependsOn [b] else DependsOn [a] in
  exists s, create [a; b] info (fun _ => true) = Returns tt s /\ stErrors s = [] /\
    In a (dependencies info b) /\ stRegistered s = [b; a] /\ ~ before (stRegistered s) a b.
Proof.
  intros a b N info. pose proof (proj2 (name_eqb_neq a b) N) as E1. pose proof (proj2 (name_eqb_neq b a) (not_eq_sym N)) as E2.
  assert (Ia : info a = DependsOn [b]) by (unfold info; rewrite name_eqb_refl; reflexivity).
  assert (Ib : info b = DependsOn [a]) by (unfold info; rewrite E2; reflexivity). clearbody info.
  eexists. split.
  - unfold create. runs. reflexivity.
  - cbn [stErrors stRegistered]. split; [reflexivity|]. split; [unfold dependencies; rewrite Ib; left; reflexivity|]. split; [reflexivity|].
    intros (l1 & l2 & l3 & X). destruct l1 as [|x [|y l1]]; cbn in X; injection X as; try congruence.
    + destruct l2 as [|z l2]; cbn in *; [discriminate|]. discriminate.
    + destruct l1; discriminate.
Qed.
Print Assumptions C88_circular_refuted.

(** A malformed info.pylon is logged, but what becomes of the repos that need it depends on the order of the DLLs: read
    first, it is a repo like any other for them, although it was never registered; read because one of them needs it, that one is
    dropped. *)
Theorem C88_malformed_refuted : forall a b, a <> b ->
  let info := fun n => if name_eqb n a then DependsOn [b] else Malformed in
  exists s t, create [a; b] info (fun _ => true) = Returns tt s /\ create [b; a] info (fun _ => true) = Returns tt t /\
    stRegistered s = [] /\ stRegistered t = [a] /\ childRepos t a = [b] /\ stErrors s = stErrors t.
Proof.
  intros a b N info. pose proof (proj2 (name_eqb_neq a b) N) as E1. pose proof (proj2 (name_eqb_neq b a) (not_eq_sym N)) as E2.
  assert (Ia : info a = DependsOn [b]) by (unfold info; rewrite name_eqb_refl; reflexivity).
  assert (Ib : info b = Malformed) by (unfold info; rewrite E2; reflexivity). clearbody info.
  eexists _, _. split; [|split].
  - unfold create. runs. reflexivity.
  - unfold create. runs. reflexivity.
  - unfold childRepos. runs. auto.
Qed.
Print Assumptions C88_malformed_refuted.
