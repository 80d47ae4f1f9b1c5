(* C79: owning pointers. *)
From Coq Require Import Permutation Lia.
From Verif Require Import OwnModel OwnSpec OwnProofs OwnMore.
Local Open Scope list_scope.

(** C79: whatever is done with the pointers (within what the specification allows), whatever addresses the heap gives,
    the program does not fail, every object is destroyed when the specification says so, no other one is destroyed,
    and no memory is in use but that of the objects owned. *)
Theorem C79_owners_partial : forall fresh, (forall l, ~ In (fresh l) l) -> forall cs o l n g, doesAll [] 0 [] cs o l n g ->
  exists s, run fresh cs start = Some (o, s) /\ gone s = g /\ made s = n /\ length (heap s) = length (orders l) /\ length (vars s) = length l.
Proof. exact owners_do. Qed.
Print Assumptions C79_owners_partial.

(** C79: at any time, every object ever made has been destroyed once or is owned by one pointer. *)
Theorem C79_once_partial : forall fresh, (forall l, ~ In (fresh l) l) -> forall cs o l n g, doesAll [] 0 [] cs o l n g ->
  exists s, run fresh cs start = Some (o, s) /\ Permutation (seq 0 (made s)) (gone s ++ orders l).
Proof.
  intros fresh HF cs o l n g D. destruct (owners_do fresh HF _ _ _ _ _ D) as (s & E & G & M & _). exists s. split; [exact E|]. rewrite G, M.
  apply (all_once _ _ _ _ _ _ _ _ D). constructor.
Qed.
Print Assumptions C79_once_partial.
(** ... and when the last variable has ended, every object has been destroyed once and no memory is in use. *)
Theorem C79_end_partial : forall fresh, (forall l, ~ In (fresh l) l) -> forall cs o n g, doesAll [] 0 [] cs o [] n g ->
  exists s, run fresh cs start = Some (o, s) /\ Permutation (seq 0 (made s)) (gone s) /\ heap s = [].
Proof.
  intros fresh HF cs o n g D. destruct (owners_do fresh HF _ _ _ _ _ D) as (s & E & G & M & L & _). exists s. split; [exact E|]. split.
  - rewrite G, M. pose proof (all_once _ _ _ _ _ _ _ _ D (Permutation_refl _)) as P. cbn in P. now rewrite app_nil_r in P.
  - cbn in L. now destruct (heap s).
Qed.
Print Assumptions C79_end_partial.

(** A list of three, one more in front, the last one taken away, a borrowed pointer to it and one that gets to own it. *)
Definition exampleCmds : list cmd :=
  [Begin Owning; Make [0] [Owning; Optional]; Make [0; 0] [Owning; Optional]; Make [0; 0; 0] [Owning; Optional];
   Borrow [0; 1] [0; 0; 0]; Look [0; 1];
   Begin Owning; Make [1] [Owning; Optional]; Assign [1; 0] [0]; Raw [0] [1];
   Begin Optional; Hand [2] [0; 0; 0; 0]; Look [0; 0; 1]; Raw [0] [0; 0]; Look [0; 1]; Begin Optional; Assign [3] [2];
   Look [3]; Look [2]; End; End; Clear [0]; End; End]%nat.
Example C79_owners_ex : exists o n g, doesAll [] 0 [] exampleCmds o [] n g /\ o = [Some 2; Some 2; Some 2; Some 2; None]%nat /\ n = 4%nat /\ g = [3; 2; 0; 1]%nat.
Proof.
  eexists _, _, _. split; [|split; [|split]].
  - unfold exampleCmds.
    Local Ltac apart := first [discriminate | intros (? & ? & E); cbn in E; congruence | intros (? & ? & E); cbn in E; discriminate E].
    eapply da_cons; [apply d_begin; discriminate|]. cbn.
    eapply da_cons; [eapply d_make; [reflexivity|reflexivity|intros [E|[E|[]]]; discriminate E]|]. cbn.
    eapply da_cons; [eapply d_make; [reflexivity|reflexivity|intros [E|[E|[]]]; discriminate E]|]. cbn.
    eapply da_cons; [eapply d_make; [reflexivity|reflexivity|intros [E|[E|[]]]; discriminate E]|]. cbn.
    eapply da_cons; [eapply d_borrow; [reflexivity|reflexivity|reflexivity|left; split; reflexivity]|]. cbn.
    eapply da_cons; [eapply d_look; [reflexivity|cbn; intros i [= <-]; auto]|]. cbn.
    eapply da_cons; [apply d_begin; discriminate|]. cbn.
    eapply da_cons; [eapply d_make; [reflexivity|reflexivity|intros [E|[E|[]]]; discriminate E]|]. cbn.
    eapply da_cons; [eapply d_assign; [reflexivity|reflexivity|reflexivity|reflexivity|apart|apart|apart]|]. cbn.
    eapply da_cons; [eapply d_raw; [reflexivity|reflexivity|reflexivity|reflexivity|reflexivity|apart]|]. cbn.
    eapply da_cons; [apply d_begin; discriminate|]. cbn.
    eapply da_cons; [eapply d_hand; [reflexivity|reflexivity|reflexivity|reflexivity|reflexivity|apart|left; split; reflexivity]|]. cbn.
    eapply da_cons; [eapply d_look; [reflexivity|cbn; intros i [= <-]; auto]|]. cbn.
    eapply da_cons; [eapply d_raw; [reflexivity|reflexivity|reflexivity|reflexivity|reflexivity|apart]|]. cbn.
    eapply da_cons; [eapply d_look; [reflexivity|cbn; intros i [= <-]; auto]|]. cbn.
    eapply da_cons; [apply d_begin; discriminate|]. cbn.
    eapply da_cons; [eapply d_optional; [reflexivity|reflexivity|reflexivity|reflexivity|apart|apart|apart|left; split; reflexivity]|]. cbn.
    eapply da_cons; [eapply d_look; [reflexivity|cbn; intros i [= <-]; auto]|]. cbn.
    eapply da_cons; [eapply d_look; [reflexivity|cbn; intros i E; discriminate E]|]. cbn.
    eapply da_cons; [eapply (d_end [_; _; _])|]. cbn.
    eapply da_cons; [eapply (d_end [_; _])|]. cbn.
    eapply da_cons; [eapply d_clear; [reflexivity|reflexivity]|]. cbn.
    eapply da_cons; [eapply (d_end [_])|]. cbn.
    eapply da_cons; [eapply (d_end [])|]. cbn.
    constructor.
  - reflexivity.
  - reflexivity.
  - reflexivity.
Qed.

(** Not C79: assigning an owned pointer from inside of what the pointer owned (head = std::move(head->next)) always uses
    memory that is free: the object is destroyed before the other pointer is read. *)
Theorem C79_inside_refuted : forall fresh, (forall l, ~ In (fresh l) l) -> forall cs o l n g p q i ks x, doesAll [] 0 [] cs o l n g ->
  get p l = Some (Holds Owning i ks) -> inside q p -> get q l = Some x -> kindOf x = Owning -> run fresh (cs ++ [Assign p q]) start = None.
Proof. exact from_inside. Qed.
Print Assumptions C79_inside_refuted.
(** Not C79: assigning an owned pointer to itself fails an assertion. *)
Theorem C79_itself_refuted : forall fresh, (forall l, ~ In (fresh l) l) -> forall cs o l n g p i ks, doesAll [] 0 [] cs o l n g ->
  get p l = Some (Holds Owning i ks) -> run fresh (cs ++ [Assign p p]) start = None.
Proof. exact to_itself. Qed.
Print Assumptions C79_itself_refuted.
(** Not C79: neither can a pointer that has borrowed an object borrow it again. *)
Theorem C79_again_refuted : forall fresh, (forall l, ~ In (fresh l) l) -> forall cs o l n g p q old x i, doesAll [] 0 [] cs o l n g ->
  get p l = Some old -> top old = mkContent Optional (Some i) false -> get q l = Some x -> cId (top x) = Some i ->
  run fresh (cs ++ [Borrow p q]) start = None.
Proof. exact same_borrow. Qed.
Print Assumptions C79_again_refuted.
Example C79_inside_ex : exists o l n g i ks x, doesAll [] 0 [] [Begin Owning; Make [0] [Owning; Optional]; Make [0; 0] [Owning]; Borrow [0; 1] [0; 0]]%nat o l n g /\
  get [0]%nat l = Some (Holds Owning i ks) /\ inside [0; 0]%nat [0]%nat /\ get [0; 0]%nat l = Some x /\ kindOf x = Owning /\
  exists old, get [0; 1]%nat l = Some old /\ top old = mkContent Optional (cId (top x)) false /\ cId (top x) = Some 1%nat.
Proof.
  eexists _, _, _, _, _, _, _. split.
  - eapply da_cons; [apply d_begin; discriminate|]. cbn.
    eapply da_cons; [eapply d_make; [reflexivity|reflexivity|intros [E|[E|[]]]; discriminate E]|]. cbn.
    eapply da_cons; [eapply d_make; [reflexivity|reflexivity|intros [E|[]]; discriminate E]|]. cbn.
    eapply da_cons; [eapply d_borrow; [reflexivity|reflexivity|reflexivity|left; split; reflexivity]|]. cbn. constructor.
  - split; [reflexivity|]. split; [exists [0]%nat; split; [discriminate|reflexivity]|]. split; [reflexivity|]. split; [reflexivity|].
    eexists. split; [reflexivity|]. split; reflexivity.
Qed.

Definition next (l : list nat) : nat := S (list_max l).
Lemma next_fresh l : ~ In (next l) l.
Proof. intros I. unfold next in I. pose proof (proj1 (list_max_le l (list_max l)) (le_n _)) as F. rewrite Forall_forall in F. apply F in I. lia. Qed.
(** Not C79: an object moved into a pointer of its own is never destroyed (a->child = std::move(a)). *)
Theorem C79_cycle_refuted : exists fresh s, (forall l, ~ In (fresh l) l) /\
  run fresh [Begin Owning; Make [0] [Owning]; Assign [0; 0] [0]; End]%nat start = Some ([], s) /\ vars s = [] /\ gone s = [] /\ made s = 1%nat.
Proof. exists next. eexists. split; [exact next_fresh|]. split; [vm_compute; reflexivity|]. repeat split; reflexivity. Qed.
Print Assumptions C79_cycle_refuted.
(** Not C79: a functor that is assigned forgets the callable that it had, and one that is assigned to itself as well. *)
Theorem C79_functor_refuted : exists fresh s s', (forall l, ~ In (fresh l) l) /\
  run fresh [Begin Func; MakeFunc [0] []; MakeFunc [0] []; End]%nat start = Some ([], s) /\ vars s = [] /\ heap s <> [] /\
  run fresh [Begin Func; MakeFunc [0] []; Assign [0] [0]; Look [0]; End]%nat start = Some ([None], s') /\ vars s' = [] /\ heap s' <> [].
Proof.
  exists next. eexists _, _. split; [exact next_fresh|]. split; [vm_compute; reflexivity|]. split; [reflexivity|]. split; [discriminate|].
  split; [vm_compute; reflexivity|]. split; [reflexivity|discriminate].
Qed.
Print Assumptions C79_functor_refuted.
(** Not C79: what a functor's callable owns is not destroyed along with the functor. *)
Theorem C79_captured_refuted : exists fresh s, (forall l, ~ In (fresh l) l) /\
  run fresh [Begin Owning; Make [0] []; Begin Func; MakeFunc [1] [[0]]; End; End]%nat start = Some ([], s) /\ vars s = [] /\ gone s = [] /\ map (fun e => fst (snd e)) (heap s) = [0]%nat.
Proof. exists next. eexists. split; [exact next_fresh|]. split; [vm_compute; reflexivity|]. repeat split; reflexivity. Qed.
Print Assumptions C79_captured_refuted.
