(* C91: structs are converted member by member. *)
From Coq Require Import String.
From Verif Require Import Base Txt ConvertModel ConvertSpec ConvertProofs.
Local Open Scope string_scope.
Local Open Scope list_scope.
Local Open Scope Z_scope.
Local Notation length := List.length.

(** C91. There is a recipe if and only if every member has a source, the types of both go together and
    everything fits into 16 bits. *)
Theorem C91_recipe : forall dstS srcs, zlen srcs <= 65536 ->
  (createRecipe dstS srcs <> None <->
   forall dm, In dm dstS -> exists s sm, first_source srcs (mname dm) s sm /\ fits (mtype dm) (mtype sm) (offset dm) (offset sm)).
Proof. intros dstS srcs H. exact (create_fits srcs H dstS). Qed.
Print Assumptions C91_recipe.

(** C91. Without arrays on the heap in the sources, applying the recipe gives every float of the destination the
    value of the float that belongs to it in the first source with that member, as far as both go, and changes
    no other byte, wherever the destination does not overlap itself or the sources. Missing: arrays on the heap,
    where it is false. *)
Theorem C91_converts_partial : forall dstS srcs l m dst ptrs, length ptrs = length srcs ->
  (forall dm s sm, In dm dstS -> first_source srcs (mname dm) s sm -> flat (mtype sm)) ->
  createRecipe dstS srcs = Some l ->
  (forall x y x' y', moved dstS srcs dst ptrs x y -> moved dstS srcs dst ptrs x' y' -> (x = x' /\ y = y') \/ apart x x') ->
  (forall x y x' y', moved dstS srcs dst ptrs x y -> moved dstS srcs dst ptrs x' y' -> apart x y') ->
  exists m', applyRecipe l m dst ptrs = Some m' /\
  (forall x y k, moved dstS srcs dst ptrs x y -> 0 <= k < 4 -> m' (x + k) = m (y + k)) /\
  (forall a, (forall x y, moved dstS srcs dst ptrs x y -> ~ (x <= a < x + 4)) -> m' a = m a).
Proof. exact convert_ok. Qed.
Print Assumptions C91_converts_partial.

(** Two members; the second is shorter in the first source, where the first does not occur. *)
Definition dstE := [mkMember (txt "a") 0 TFloat; mkMember (txt "b") 4 (TFixed TFloat 3 4)].
Definition srcsE := [[mkMember (txt "c") 0 TFloat; mkMember (txt "b") 8 (TFixed TFloat 2 8)];
                     [mkMember (txt "a") 4 TFloat; mkMember (txt "b") 8 (TFixed TFloat 3 4)]].
Example C91_recipe_case : createRecipe dstE srcsE = Some [SetRoot 1; Copy32 0 4; SetRoot 0; Copy32 4 8; Copy32 8 16; EndScope].
Proof. vm_compute. reflexivity. Qed.
Lemma source_a : first_source srcsE (txt "a") 1 (mkMember (txt "a") 4 TFloat).
Proof.
  exists [], [mkMember (txt "b") 8 (TFixed TFloat 3 4)]. split; [reflexivity|]. split; [reflexivity|]. split; [intros m []|].
  intros [|s'] st m Hs Hst Hm; [|lia]. cbn in Hst. injection Hst as <-. destruct Hm as [<-|[<-|[]]]; discriminate.
Qed.
Lemma source_b : first_source srcsE (txt "b") 0 (mkMember (txt "b") 8 (TFixed TFloat 2 8)).
Proof.
  exists [mkMember (txt "c") 0 TFloat], []. split; [reflexivity|]. split; [reflexivity|]. split; [|intros s' st m Hs; lia].
  intros m [<-|[]]. discriminate.
Qed.
Lemma movedE x y : moved dstE srcsE 0 [100; 200] x y -> (x = 0 /\ y = 204) \/ (x = 4 /\ y = 108) \/ (x = 8 /\ y = 116).
Proof.
  intros (dm & s & sm & p & o & o' & [<-|[<-|[]]] & Hf & Hp & Hc & -> & ->).
  - destruct (first_unique _ _ _ _ _ _ source_a Hf) as [<- <-]. cbn in Hp. injection Hp as <-. cbn in Hc. inversion Hc; subst. cbn. lia.
  - destruct (first_unique _ _ _ _ _ _ source_b Hf) as [<- <-]. cbn in Hp. injection Hp as <-. cbn in Hc. inversion Hc; subst.
    match goal with H : corresponds TFloat TFloat _ _ |- _ => inversion H; subst end. cbn [offset]. assert (D : i = 0 \/ i = 1) by lia. destruct D as [->| ->]; lia.
Qed.
Example C91_converts_case : forall m, exists l m', createRecipe dstE srcsE = Some l /\ applyRecipe l m 0 [100; 200] = Some m' /\
  (forall k, 0 <= k < 4 -> m' k = m (204 + k) /\ m' (4 + k) = m (108 + k) /\ m' (8 + k) = m (116 + k)) /\
  (forall a, a < 0 \/ 12 <= a -> m' a = m a).
Proof.
  intros m. exists [SetRoot 1; Copy32 0 4; SetRoot 0; Copy32 4 8; Copy32 8 16; EndScope].
  destruct (C91_converts_partial dstE srcsE [SetRoot 1; Copy32 0 4; SetRoot 0; Copy32 4 8; Copy32 8 16; EndScope] m 0 [100; 200] eq_refl)
    as (m' & E & H1 & H2); [|exact C91_recipe_case| | |].
  - intros dm s sm [<-|[<-|[]]] Hf; [destruct (first_unique _ _ _ _ _ _ source_a Hf) as [<- <-]|destruct (first_unique _ _ _ _ _ _ source_b Hf) as [<- <-]]; exact I.
  - intros x y x' y' H H'. apply movedE in H, H'. unfold apart. lia.
  - intros x y x' y' H H'. apply movedE in H, H'. unfold apart. lia.
  - exists m'. split; [exact C91_recipe_case|]. split; [exact E|]. split.
    + intros k Hk. split; [|split].
      * apply (H1 0 204 k); [|exact Hk]. exists (mkMember (txt "a") 0 TFloat), 1%nat, (mkMember (txt "a") 4 TFloat), 200, 0, 0.
        split; [left; reflexivity|]. split; [exact source_a|]. split; [reflexivity|]. split; [constructor|]. split; reflexivity.
      * apply (H1 4 108 k); [|exact Hk]. exists (mkMember (txt "b") 4 (TFixed TFloat 3 4)), 0%nat, (mkMember (txt "b") 8 (TFixed TFloat 2 8)), 100, 0, 0.
        split; [right; left; reflexivity|]. split; [exact source_b|]. split; [reflexivity|]. split; [|split; reflexivity].
        apply (corresponds_item TFloat 3 4 TFloat 2 8 0 0 0); [lia|lia|constructor].
      * apply (H1 8 116 k); [|exact Hk]. exists (mkMember (txt "b") 4 (TFixed TFloat 3 4)), 0%nat, (mkMember (txt "b") 8 (TFixed TFloat 2 8)), 100, 4, 8.
        split; [right; left; reflexivity|]. split; [exact source_b|]. split; [reflexivity|]. split; [|split; reflexivity].
        apply (corresponds_item TFloat 3 4 TFloat 2 8 1 0 0); [lia|lia|constructor].
    + intros a Ha. apply H2. intros x y H. apply movedE in H. lia.
Qed.

(** C91. An array of floats on the heap is never converted to a fixed array: whatever it contains, and whatever
    members follow, the first four bytes of the source are copied to the first four of the destination, and
    nothing else happens. *)
Theorem C91_heap_refuted :
  (forall dm rest srcs s sm n st size p l m dst ptrs, first_source srcs (mname dm) s sm ->
     mtype dm = TFixed TFloat n st -> mtype sm = TArr TFloat size -> nth_error ptrs s = Some p ->
     createRecipe (dm :: rest) srcs = Some l ->
     exists m', applyRecipe l m dst ptrs = Some m' /\
     (forall k, 0 <= k < 4 -> m' (dst + k) = m (p + k)) /\ (forall a, ~ (dst <= a < dst + 4) -> m' a = m a)) /\
  exists dm rest srcs s sm n st size l, first_source srcs (mname dm) s sm /\
     mtype dm = TFixed TFloat n st /\ mtype sm = TArr TFloat size /\ rest <> [] /\ createRecipe (dm :: rest) srcs = Some l.
Proof.
  split.
  - intros dm rest srcs s sm n st size p l m dst ptrs Hf Ht Hu Hp E. exists (copy4 m (dst + 0) (p + 0)).
    split; [exact (heap_wrong dm rest srcs s sm n st size p l m dst ptrs Hf Ht Hu Hp E)|]. rewrite !Z.add_0_r. split.
    + intros k Hk. apply copy4_in, Hk.
    + intros a Ha. apply copy4_out, Ha.
  - exists (mkMember (txt "b") 16 (TFixed TFloat 2 4)), [mkMember (txt "a") 24 TFloat], [[mkMember (txt "b") 8 (TArr TFloat 4); mkMember (txt "a") 0 TFloat]], 0%nat,
      (mkMember (txt "b") 8 (TArr TFloat 4)), 2, 4, 4. eexists. split.
    { exists [], [mkMember (txt "a") 0 TFloat]. split; [reflexivity|]. split; [reflexivity|]. split; [intros m []|]. intros s' st m Hs; lia. }
    split; [reflexivity|]. split; [reflexivity|]. split; [discriminate|]. vm_compute. reflexivity.
Qed.
Print Assumptions C91_heap_refuted.
