(* C89: names in the documentation. *)
From Coq Require Import String.
From Verif Require Import Base Txt StringViewModel StringViewSpec DocNamesModel DocNamesSpec DocNamesProofs DocNamesMore.
Local Open Scope string_scope.
Local Open Scope list_scope.
Local Open Scope Z_scope.
Local Notation length := List.length.

Lemma alive_sig s i : at_ s i <> None -> sig s i <> None.
Proof. unfold sig. destruct (at_ s i); [discriminate|contradiction]. Qed.

(** The documentation of [namespace ply { struct String { left(); String(); }; struct Array; }], and
    a function [left] outside. *)
Definition d1 := added nothing 0 Namespace (txt "ply") [1%nat].
Definition d2 := added d1 1 Class (txt "String") [2%nat].
Definition d3 := added d2 2 Member (txt "left") [3%nat].
Definition d4 := added d3 2 Member (txt "String") [3%nat].
Definition d5 := added d4 1 Class (txt "Array") [5%nat; 2%nat].
Definition d6 := added d5 0 Member (txt "left") [6%nat; 1%nat].
(** And with a second [struct String]. *)
Definition d7 := added d6 1 Class (txt "String") [5%nat; 7%nat; 2%nat].

Ltac pair_ok := let a := fresh in let b := fresh in let Ha := fresh in let Hb := fresh in
  intros a b Ha Hb; vm_compute in Ha; vm_compute in Hb; injection Ha as <-; injection Hb as <-; vm_compute; reflexivity.
Ltac all_ok := first [apply Forall_nil | apply Forall_cons; [pair_ok|all_ok]].
Ltac order_ok := first [apply SSorted_nil | apply SSorted_cons; [order_ok|all_ok]].

Lemma r1 : reached d1.
Proof. eapply reached_step; [apply reached_nothing|]. apply (AddNamespace nothing 0 (txt "ply") [] []); try reflexivity. unfold ordered. order_ok. Qed.
Lemma r2 : reached d2.
Proof. eapply reached_step; [apply r1|]. apply (AddClass d1 1 (txt "String") [] []); try reflexivity. unfold ordered. order_ok. Qed.
Lemma r3 : reached d3.
Proof. eapply reached_step; [apply r2|]. apply (AddMember d2 2 (txt "left") [] []); try reflexivity. unfold ordered. order_ok. Qed.
Lemma r4 : reached d4.
Proof. eapply reached_step; [apply r3|]. apply (AddCtor d3 2 (txt "String")); reflexivity. Qed.
Lemma r5 : reached d5.
Proof. eapply reached_step; [apply r4|]. apply (AddClass d4 1 (txt "Array") [] [2%nat]); try reflexivity. unfold ordered. order_ok. Qed.
Lemma r6 : reached d6.
Proof. eapply reached_step; [apply r5|]. apply (AddMember d5 0 (txt "left") [] [1%nat]); try reflexivity. unfold ordered. order_ok. Qed.
Lemma r7 : reached d7.
Proof. eapply reached_step; [apply r6|]. apply (AddClass d6 1 (txt "String") [5%nat] [2%nat]); try reflexivity. unfold ordered. order_ok. Qed.

(** C89. Whatever has been extracted, extracted again and thrown away, looking a name up from any entity
    ends, and gives what the innermost scope around that declares the name declares under it, or nothing
    if no scope around declares it. Without the scopes around, it gives what the scope itself declares. *)
Theorem C89_lookup : forall s i x, reached s -> at_ s i <> None -> zlen x < 2 ^ 31 ->
  (exists r, lookup (S (next s)) s i x true = Some r /\ means s i x r) /\
  (exists r, lookup (S (next s)) s i x false = Some r /\
     match r with Some k => declares s i x k | None => forall k, ~ declares s i x k end).
Proof.
  intros s i x H Hi Hx. apply reached_wf in H. split.
  - apply lookup_ok; [exact H|exact Hx|]. apply alive_sig in Hi. destruct (sig s i) as [v|] eqn:E; [|contradiction].
    apply (w_next s H) in E. lia.
  - exists (child s i x). split; [cbn; destruct (child s i x); reflexivity|]. apply child_ok; assumption.
Qed.
Print Assumptions C89_lookup.
Example C89_lookup_case : reached d6 /\ lookup 8 d6 3 (txt "left") true = Some (Some 3%nat) /\
  lookup 8 d6 5 (txt "left") true = Some (Some 6%nat) /\ lookup 8 d6 3 (txt "Array") true = Some (Some 5%nat) /\
  lookup 8 d6 3 (txt "right") true = Some None /\ lookup 8 d6 3 (txt "String") true = Some (Some 2%nat) /\
  lookup 8 d6 5 (txt "left") false = Some None.
Proof. split; [exact r6|]. repeat split; vm_compute; reflexivity. Qed.

(** C89. A name of several parts always gives an answer. Its first part is looked up as above, and each
    further part is declared directly in the namespace or class that the parts before it lead to. *)
Theorem C89_chain : forall s i x rest, reached s -> at_ s i <> None -> Forall (fun x => zlen x < 2 ^ 31) (x :: rest) ->
  exists r, lookupChain s i (x :: rest) = Some r /\
  forall e, r = Some e -> exists k, means s i x (Some k) /\ into s k rest e.
Proof. intros s i x rest H Hi Hf. apply chain_ok; [apply reached_wf, H|apply alive_sig, Hi|exact Hf]. Qed.
Print Assumptions C89_chain.

(** C89. A name without parts means nothing. *)
Theorem C89_chain_none : forall s i, lookupChain s i [] = Some None.
Proof. intros s i. reflexivity. Qed.
Print Assumptions C89_chain_none.

(** C89. Where no scope declares a name twice, the answer is exactly what the parts lead to. *)
Theorem C89_chain_exact : forall s i x rest e, reached s -> at_ s i <> None -> Forall (fun x => zlen x < 2 ^ 31) (x :: rest) ->
  (forall p y k j, declares s p y k -> declares s p y j -> k = j) ->
  (lookupChain s i (x :: rest) = Some (Some e) <-> exists k, means s i x (Some k) /\ into s k rest e).
Proof. intros s i x rest e H Hi Hf U. apply chain_iff; [apply reached_wf, H|exact U|apply alive_sig, Hi|exact Hf]. Qed.
Print Assumptions C89_chain_exact.
Example C89_chain_case : lookupChain d6 3 [txt "String"; txt "left"] = Some (Some 3%nat) /\
  lookupChain d6 5 [txt "ply"; txt "Array"] = Some (Some 5%nat) /\
  lookupChain d6 2 [txt "left"; txt "left"] = Some None /\ lookupChain d6 2 [] = Some None.
Proof. repeat split; vm_compute; reflexivity. Qed.
Example C89_chain_exact_case : forall p y k j, declares d6 p y k -> declares d6 p y j -> k = j.
Proof.
  intros p y k j (e & He & Hp & Hn & Hc) (e' & He' & Hp' & Hn' & Hc').
  assert (Hs : forall i v, at_ d6 i = Some v -> (i < 7)%nat).
  { intros i v Hv. apply (w_next d6 (reached_wf d6 r6) i (parentOf v, kindOf v, nameOf v)). unfold sig. rewrite Hv. reflexivity. }
  pose proof (Hs _ _ He) as Lk. pose proof (Hs _ _ He') as Lj.
  do 7 (destruct k as [|k]; [vm_compute in He; injection He as <-; cbn in Hp, Hn, Hc;
    do 7 (destruct j as [|j]; [vm_compute in He'; injection He' as <-; cbn in Hp', Hn', Hc'; subst; try reflexivity; try discriminate; try congruence;
      exfalso; first [apply Hc | apply Hc']; (split; [reflexivity|]); eexists; repeat split; vm_compute; reflexivity|]); lia|]); lia.
Qed.

(** C89. The qualified name of a class, namespace or member consists of the names from the outermost
    scope to it, joined by two colons, and leads back to it if nothing else is declared under the
    same name beside it or beside a scope around it. Missing: names declared twice
    (C89_twice_refuted) and constructors, which are not looked up by name. *)
Theorem C89_qualified_partial : forall s i a, reached s -> address s i a -> Forall (fun w => w <> [] /\ ~ In 58 w) a ->
  alone s i -> (exists p x, declares s p x i) -> kind_of s i <> Some FunctionParam ->
  exists t, qualifiedID (S (next s)) s i = Some t /\ t = joined (txt "::") a /\ resolve s t = Some (Some i).
Proof. exact (fun s i a H => qualified_ok s i a (reached_wf s H)). Qed.
Print Assumptions C89_qualified_partial.
Example C89_qualified_case : address d6 2 [txt "ply"; txt "String"] /\ qualifiedID 8 d6 2 = Some (txt "ply::String") /\
  resolve d6 (txt "ply::String") = Some (Some 2%nat) /\ resolve d6 (txt "ply::String::left") = Some (Some 3%nat) /\ declares d6 1 (txt "String") 2.
Proof.
  split.
  - apply (address_in d6 2 (mkEnt (Some 1%nat) Class (txt "String") [3%nat]) 1 [txt "ply"]); [vm_compute; reflexivity|reflexivity|].
    apply (address_top d6 1 (mkEnt (Some 0%nat) Namespace (txt "ply") [5%nat; 2%nat])); [vm_compute; reflexivity|reflexivity].
  - repeat split; try (vm_compute; reflexivity). eexists. split; [vm_compute; reflexivity|]. split; [reflexivity|]. split; [reflexivity|].
    intros (E & _). discriminate E.
Qed.

Example C89_qualified_alone_case : alone d6 2.
Proof.
  assert (Hd : forall i p e, at_ d6 i = Some e -> parentOf e = Some p -> kindOf e <> Member -> declares d6 p (nameOf e) i).
  { intros i p e He Hp Hk. apply scope_declared; try assumption. apply reached_wf, r6. }
  apply (alone_in d6 2 (mkEnt (Some 1%nat) Class (txt "String") [3%nat]) 1); [vm_compute; reflexivity|reflexivity| |].
  { intros k Hk. apply (C89_chain_exact_case _ _ _ _ Hk). apply (Hd 2%nat 1%nat (mkEnt (Some 1%nat) Class (txt "String") [3%nat])); [vm_compute; reflexivity|reflexivity|discriminate]. }
  apply (alone_in d6 1 (mkEnt (Some 0%nat) Namespace (txt "ply") [5%nat; 2%nat]) 0); [vm_compute; reflexivity|reflexivity| |apply alone_global].
  intros k Hk. apply (C89_chain_exact_case _ _ _ _ Hk). apply (Hd 1%nat 0%nat (mkEnt (Some 0%nat) Namespace (txt "ply") [5%nat; 2%nat])); [vm_compute; reflexivity|reflexivity|discriminate].
Qed.

(** C89. Not every class can be reached by its qualified name: of two classes of the same name in one
    scope, both are kept, and the name leads to at most one. Such states are reached. *)
Theorem C89_twice_refuted :
  (forall s i j, reached s -> i <> j -> parent_of s i = parent_of s j -> name_of s i = name_of s j -> forall t,
     qualifiedID (S (next s)) s i = Some t ->
     qualifiedID (S (next s)) s j = Some t /\ ~ (resolve s t = Some (Some i) /\ resolve s t = Some (Some j))) /\
  (exists s i j, reached s /\ i <> j /\ kind_of s i = Some Class /\ kind_of s j = Some Class /\
     qualifiedID (S (next s)) s i = Some (txt "ply::String") /\ qualifiedID (S (next s)) s j = Some (txt "ply::String") /\
     resolve s (txt "ply::String") = Some (Some j)).
Proof.
  split.
  - intros s i j H Hij Hp Hn t Ht. split; [|intros (A & B); congruence]. cbn [qualifiedID] in *. rewrite <- Hp, <- Hn. exact Ht.
  - exists d7, 2%nat, 7%nat. split; [exact r7|]. split; [discriminate|]. repeat split; vm_compute; reflexivity.
Qed.
Print Assumptions C89_twice_refuted.

(** C89. Before a class is added, an error is told once for each thing that the scope already declares
    under its name. *)
Theorem C89_told : forall s p x, reached s -> zlen x < 2 ^ 31 ->
  exists ks, NoDup ks /\ (forall k, In k ks <-> declares s p x k) /\ alreadyDefined s p x = length ks.
Proof. exact (fun s p x H => told_ok s p x (reached_wf s H)). Qed.
Print Assumptions C89_told.
Example C89_told_case : alreadyDefined d7 1 (txt "String") = 2%nat /\ alreadyDefined d6 1 (txt "left") = 0%nat.
Proof. split; vm_compute; reflexivity. Qed.

(** C89. A namespace has one entity: entering it again in the same scope enters that one, if nothing else
    there has its name, and a new one is made only if nothing there has its name. *)
Theorem C89_namespace : forall s p x, reached s -> zlen x < 2 ^ 31 ->
  (forall i j, declares s p x i -> declares s p x j -> kind_of s i = Some Namespace -> kind_of s j = Some Namespace -> i = j) /\
  (forall n, declares s p x n -> kind_of s n = Some Namespace -> (forall k, declares s p x k -> k = n) ->
     enterNamespace s p x = Reenters n) /\
  (enterNamespace s p x = IsNew <-> forall k, ~ declares s p x k).
Proof.
  intros s p x H Hx. apply reached_wf in H. pose proof (enter_ok s p x H Hx) as He. split; [|split].
  - intros i j Hi Hj Ki Kj. apply declares_sig in Hi as (ki & Hi & _). apply declares_sig in Hj as (kj & Hj & _).
    pose proof (kind_sig _ _ _ _ _ Hi) as E1. pose proof (kind_sig _ _ _ _ _ Hj) as E2.
    rewrite Ki in E1. injection E1 as <-. rewrite Kj in E2. injection E2 as <-. exact (w_ns s H p x i j Hi Hj).
  - intros n Hn Kn Hone. destruct (enterNamespace s p x) as [m| |].
    + rewrite (Hone m (proj1 He)). reflexivity.
    + destruct (He n Hn).
    + destruct He as (k & Hd & Hk). rewrite (Hone k Hd) in Hk. contradiction.
  - destruct (enterNamespace s p x) as [m| |]; split; try discriminate; intros Hc; try exact He; try reflexivity.
    + destruct (Hc m (proj1 He)).
    + destruct He as (k & Hd & _). destruct (Hc k Hd).
Qed.
Print Assumptions C89_namespace.
Example C89_namespace_case : enterNamespace d6 0 (txt "ply") = Reenters 1%nat /\ enterNamespace d6 0 (txt "web") = IsNew.
Proof. split; vm_compute; reflexivity. Qed.

(** C89. The error that a namespace has the name of something else is not told: whenever a scope declares
    the name but no namespace under it, the extractor reads through a null pointer. *)
Theorem C89_clash_refuted : forall s p x k, reached s -> zlen x < 2 ^ 31 -> declares s p x k ->
  (forall n, declares s p x n -> kind_of s n <> Some Namespace) -> enterNamespace s p x = Crashes.
Proof.
  intros s p x k H Hx Hd Hn. apply reached_wf in H. pose proof (enter_ok s p x H Hx) as He.
  destruct (enterNamespace s p x) as [m| |]; [|destruct (He k Hd)|reflexivity]. destruct (Hn m (proj1 He) (proj2 He)).
Qed.
Print Assumptions C89_clash_refuted.
Example C89_clash_case : reached d6 /\ enterNamespace d6 0 (txt "left") = Crashes.
Proof. split; [exact r6|vm_compute; reflexivity]. Qed.

(** C89. Something declared in a namespace can always be thrown away: it is found in the namespace, and
    exactly it and what it contains stop being declared. *)
Theorem C89_dropped : forall s e p, reached s -> parent_of s e = Some p -> kind_of s p = Some Namespace ->
  exists ks, unregistered s e p = Some ks /\ Permutation (kids_of s p) (e :: ks) /\
  forall D, (forall i, D i = true <-> i = e \/ exists q, parent_of s i = Some q /\ D q = true) ->
  let s' := mkDocs (fun i => if D i then None else setKids s p ks i) (next s) in
  reached s' /\ (forall q x k, declares s' q x k <-> declares s q x k /\ D k = false).
Proof.
  intros s e p H Hp Hk. pose proof (reached_wf s H) as W. pose proof (in_namespace s e p W Hp Hk) as Hin.
  destruct (unregistered_ok s e p W Hin) as (a & b & E1 & E2). exists (a ++ b). split; [exact E2|].
  split; [rewrite E1; symmetry; apply Permutation_middle|]. intros D HD s'. split.
  - eapply reached_step; [exact H|]. apply (Drop s e p (a ++ b) D); assumption.
  - exact (drop_declares s e p (a ++ b) D W Hp Hk E2 HD).
Qed.
Print Assumptions C89_dropped.
Example C89_dropped_case : unregistered d7 2 1 = Some [5%nat; 7%nat] /\
  let D := fun i => match i with 2%nat | 3%nat | 4%nat => true | _ => false end in
  forall i, D i = true <-> i = 2%nat \/ exists q, parent_of d7 i = Some q /\ D q = true.
Proof.
  split; [vm_compute; reflexivity|]. intros D i.
  assert (Hs : forall q, parent_of d7 i = Some q -> (i < 8)%nat).
  { intros q Hq. apply sig_of_parent in Hq as (kd & x & Hq). exact (w_next d7 (reached_wf d7 r7) i _ Hq). }
  split.
  - intros H. do 5 (destruct i as [|i]; [try discriminate H; try (left; reflexivity); right; exists 2%nat; split; vm_compute; reflexivity|]). discriminate H.
  - intros [->|(q & Hq & HDq)]; [reflexivity|]. pose proof (Hs q Hq) as Hlt.
    do 8 (destruct i as [|i]; [vm_compute in Hq; try discriminate Hq; injection Hq as <-; try discriminate HDq; reflexivity|]). lia.
Qed.

(** C89. Something new can be added to every scope: there is a place for it in the order of names. *)
Theorem C89_added : forall s p x, reached s -> at_ s p <> None -> zlen x < 2 ^ 31 ->
  isScope (kind_of s p) = true -> exists s', step s s' /\ at_ s' (next s) = Some (mkEnt (Some p) Class x []) /\
  forall q y k, declares s' q y k <-> declares s q y k \/ (q = p /\ y = x /\ k = next s).
Proof.
  intros s p x H Hp Hx Hsc. apply reached_wf in H. destruct (place s p Class x H (alive_sig s p Hp) Hx) as (a & b & E & Ho).
  exists (added s p Class x (a ++ next s :: b)). split; [apply AddClass; assumption|]. split; [cbn; rewrite Nat.eqb_refl; reflexivity|].
  intros q y k. assert (Hfresh : sig s (next s) = None).
  { destruct (sig s (next s)) as [v|] eqn:Ev; [|reflexivity]. apply (w_next s H) in Ev. lia. }
  destruct (Nat.eq_dec k (next s)) as [->|Hk].
  - split.
    + intros Hd. apply declares_sig in Hd as (kd & Hd & _). rewrite sig_added, Nat.eqb_refl in Hd. injection Hd as <- _ <-. right. auto.
    + intros [Hd|(-> & -> & _)]; [apply declares_sig in Hd as (kd & Hd & _); congruence|].
      apply declares_sig. exists Class. rewrite sig_added, Nat.eqb_refl. split; [reflexivity|]. intros (F & _). discriminate F.
  - assert (Hq : forall s0, sig s0 k = sig s k -> forall kd, sig s0 k = Some (Some q, kd, y) -> q <> next s).
    { intros s0 E0 kd Hd Eq. rewrite E0 in Hd. destruct (w_parent s H _ _ _ _ Hd) as (_ & _ & p1 & k1 & x1 & H1 & _). congruence. }
    assert (Ek : sig (added s p Class x (a ++ next s :: b)) k = sig s k) by (rewrite sig_added; destruct (Nat.eqb_spec k (next s)); [contradiction|reflexivity]).
    assert (Eqq : q <> next s -> sig (added s p Class x (a ++ next s :: b)) q = sig s q) by (intros Hne; rewrite sig_added; destruct (Nat.eqb_spec q (next s)); [contradiction|reflexivity]).
    split.
    + intros Hd. left. pose proof Hd as Hd2. apply declares_sig in Hd2 as (kd & Hd2 & _).
      apply (declares_ext s (added s p Class x (a ++ next s :: b)) q y k); [exact Ek|apply Eqq, (Hq _ Ek kd Hd2)|exact Hd].
    + intros [Hd|(_ & _ & F)]; [|contradiction]. pose proof Hd as Hd2. apply declares_sig in Hd2 as (kd & Hd2 & _).
      apply (declares_ext s (added s p Class x (a ++ next s :: b)) q y k); [exact Ek|apply Eqq, (Hq s eq_refl kd Hd2)|exact Hd].
Qed.
Print Assumptions C89_added.
Example C89_added_case : isScope (kind_of d6 2) = true /\ at_ d6 2 <> None.
Proof. split; [reflexivity|vm_compute; discriminate]. Qed.
