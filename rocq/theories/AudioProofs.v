(* Proofs about the audio primitives. *)
From Verif Require Import Base AudioModel AudioSpec.

Ltac Zify.zify_post_hook ::= Z.div_mod_to_equations.

(* Numbers. *)

Lemma toS16_id z : is_s16 z -> toS16 z = z.
Proof. unfold is_s16, toS16. intros H. rewrite Z.mod_small; lia. Qed.

Lemma toS16_range z : is_s16 (toS16 z).
Proof. unfold is_s16, toS16. pose proof (Z.mod_pos_bound (z + 32768) 65536). lia. Qed.

Lemma toS32_id z : -2147483648 <= z <= 2147483647 -> toS32 z = z.
Proof. unfold toS32. intros H. rewrite Z.mod_small; lia. Qed.

Lemma clamp16_range z : is_s16 (clamp16 z).
Proof. unfold is_s16, clamp16. lia. Qed.

Lemma saturating_clamp a b : saturatingAdd a b = clamp16 (a + b).
Proof.
  unfold saturatingAdd, clamp16. cbv zeta.
  destruct (Z.leb_spec 32768 (a + b)).
  - rewrite toS16_id; unfold is_s16; lia.
  - destruct (Z.ltb_spec (a + b) (-32768)); rewrite toS16_id; unfold is_s16; lia.
Qed.

Lemma s32op_some z : -2147483648 <= z <= 2147483647 -> s32op z = Some z.
Proof.
  intros H. unfold s32op.
  rewrite (proj2 (Z.leb_le _ _)), (proj2 (Z.leb_le _ _)) by lia. reflexivity.
Qed.

Lemma s32op_inv z w : s32op z = Some w -> w = z /\ -2147483648 <= z <= 2147483647.
Proof.
  unfold s32op. destruct (Z.leb_spec (-2147483648) z); [|discriminate].
  destruct (Z.leb_spec z 2147483647); [|discriminate].
  cbn. intros [= <-]. lia.
Qed.

Lemma leveled_some y l :
  -2147483648 <= y * l <= 2147483647 -> leveled y l = Some (y * l / 65536).
Proof.
  intros H. unfold leveled. rewrite s32op_some by exact H.
  rewrite toS16_id; [reflexivity|]. unfold is_s16. lia.
Qed.

Lemma leveled_none y l :
  ~ (-2147483648 <= y * l <= 2147483647) -> leveled y l = None.
Proof.
  intros H. unfold leveled. destruct (s32op (y * l)) eqn:E; [|reflexivity].
  apply s32op_inv in E. lia.
Qed.

Lemma product_fits y l :
  is_s16 y -> -65535 <= l <= 65536 -> -2147483648 <= y * l <= 2147483647.
Proof. unfold is_s16. nia. Qed.

Lemma div_mod_shift x : x mod 4294967296 / 65536 = (x / 65536) mod 65536.
Proof. lia. Qed.

Lemma dyn_wraps y level30 :
  dynLeveled y level30 = toS16 (y * (level30 / 16384) / 65536).
Proof.
  unfold dynLeveled, toU32, toS16. rewrite div_mod_shift.
  rewrite Zplus_mod_idemp_l. reflexivity.
Qed.

Lemma dyn_exact y level30 :
  is_s16 y -> 0 <= level30 <= 1073741824 ->
  dynLeveled y level30 = y * (level30 / 16384) / 65536.
Proof.
  intros Hy Hl. rewrite dyn_wraps. apply toS16_id.
  assert (0 <= level30 / 16384 <= 65536) as HL by lia.
  pose proof (product_fits y (level30 / 16384) Hy ltac:(lia)).
  unfold is_s16. lia.
Qed.

(* Memory. *)

Lemma cell_put m i v :
  (i < length m)%nat ->
  exists m', put m i v = Some m' /\ length m' = length m /\ cell m' i = v /\
             (forall j, j <> i -> cell m' j = cell m j) /\
             (sound m -> is_s16 v -> sound m').
Proof.
  revert i. induction m as [|x m IH]; intros i Hi; [cbn in Hi; lia|].
  destruct i as [|i].
  - exists (v :: m). cbn. split; [reflexivity|]. split; [reflexivity|].
    split; [reflexivity|]. split.
    + intros [|j] Hj; [congruence|]. reflexivity.
    + unfold sound. intros Hs Hv. inversion Hs; subst. constructor; assumption.
  - cbn in Hi. destruct (IH i ltac:(lia)) as (m' & E & L & C & O & Q).
    exists (x :: m'). cbn. rewrite E. split; [reflexivity|]. split; [lia|].
    split; [exact C|]. split.
    + intros [|j] Hj; [reflexivity|]. apply O. lia.
    + unfold sound. intros Hs Hv. inversion Hs; subst. constructor; [assumption|].
      apply Q; assumption.
Qed.

Lemma put_none m i v : (length m <= i)%nat -> put m i v = None.
Proof.
  revert i. induction m as [|x m IH]; intros i Hi; [reflexivity|].
  destruct i; cbn in *; [lia|]. rewrite IH by lia. reflexivity.
Qed.

Lemma addr_ok i : ((0 <=? 2 * Z.of_nat i) && Z.even (2 * Z.of_nat i)) = true.
Proof.
  rewrite (proj2 (Z.leb_le _ _)) by lia. rewrite Z.even_mul. reflexivity.
Qed.

Lemma addr_div i : Z.to_nat (2 * Z.of_nat i / 2) = i.
Proof. rewrite Z.mul_comm, Z.div_mul by lia. apply Nat2Z.id. Qed.

Lemma load_ok m i : (i < length m)%nat -> load m (2 * Z.of_nat i) = Some (cell m i).
Proof.
  intros H. unfold load. rewrite addr_ok, addr_div. apply nth_error_nth'. exact H.
Qed.

Lemma store_ok m i v :
  (i < length m)%nat ->
  exists m', store m (2 * Z.of_nat i) v = Some m' /\ length m' = length m /\
             cell m' i = v /\ (forall j, j <> i -> cell m' j = cell m j) /\
             (sound m -> is_s16 v -> sound m').
Proof.
  intros H. unfold store. rewrite addr_ok, addr_div. apply cell_put. exact H.
Qed.

Lemma sound_cell m i : sound m -> is_s16 (cell m i).
Proof.
  intros H. unfold cell. destruct (Nat.lt_ge_cases i (length m)) as [L|L].
  - unfold sound in H. rewrite Forall_forall in H. apply H. apply nth_In. exact L.
  - rewrite nth_overflow by exact L. unfold is_s16. lia.
Qed.

(* Adding one sample and then the rest. *)

Lemma added_nil m d g : added m d 0 g m.
Proof.
  unfold added. split; [reflexivity|]. split; [intros i Hi; lia|reflexivity].
Qed.

Lemma added_cons m m1 m' d k g :
  length m1 = length m ->
  cell m1 d = clamp16 (cell m d + g O) ->
  (forall j, j <> d -> cell m1 j = cell m j) ->
  added m1 (S d) k (fun i => g (S i)) m' ->
  added m d (S k) g m'.
Proof.
  intros L C O (L' & A & F). unfold added. split; [congruence|]. split.
  - intros [|i] Hi.
    + rewrite Nat.add_0_r, F by lia. exact C.
    + replace (d + S i)%nat with (S d + i)%nat by lia.
      rewrite A by lia. rewrite O by lia. reflexivity.
  - intros j Hj. rewrite F by lia. apply O. lia.
Qed.

Lemma added_ext m d n g h m' :
  (forall i, (i < n)%nat -> g i = h i) -> added m d n g m' -> added m d n h m'.
Proof.
  intros E (L & A & F). unfold added. split; [exact L|]. split; [|exact F].
  intros i Hi. rewrite <- E by exact Hi. apply A. exact Hi.
Qed.

Lemma added_app m m1 m2 d a b g :
  added m d a g m1 ->
  added m1 (d + a) b (fun i => g (a + i)%nat) m2 ->
  added m d (a + b) g m2.
Proof.
  intros (L1 & A1 & F1) (L2 & A2 & F2). unfold added. split; [congruence|]. split.
  - intros i Hi. destruct (Nat.lt_ge_cases i a) as [H|H].
    + rewrite F2 by lia. apply A1. exact H.
    + replace (d + i)%nat with (d + a + (i - a))%nat by lia.
      rewrite A2 by lia. rewrite F1 by lia.
      replace (a + (i - a))%nat with i by lia. reflexivity.
  - intros j Hj. rewrite F2 by lia. apply F1. lia.
Qed.

Lemma added_unique m d n g a b :
  added m d n g a -> added m d n g b -> a = b.
Proof.
  intros (L1 & A1 & F1) (L2 & A2 & F2).
  apply nth_ext with (d := 0) (d' := 0); [congruence|].
  intros i Hi. change (cell a i = cell b i).
  destruct (Nat.lt_ge_cases i d) as [H|H]; [rewrite F1, F2 by lia; reflexivity|].
  destruct (Nat.lt_ge_cases i (d + n)) as [H2|H2];
    [|rewrite F1, F2 by lia; reflexivity].
  replace i with (d + (i - d))%nat by lia.
  rewrite A1, A2 by lia. reflexivity.
Qed.

Lemma added_sound m d n g m' : sound m -> added m d n g m' -> sound m'.
Proof.
  intros Hs (L & A & F). unfold sound. apply Forall_forall. intros x Hx.
  apply In_nth with (d := 0) in Hx. destruct Hx as (i & Hi & <-).
  change (is_s16 (cell m' i)).
  destruct (Nat.lt_ge_cases i d) as [H|H];
    [rewrite F by lia; apply sound_cell; exact Hs|].
  destruct (Nat.lt_ge_cases i (d + n)) as [H2|H2];
    [|rewrite F by lia; apply sound_cell; exact Hs].
  replace i with (d + (i - d))%nat by lia. rewrite A by lia. apply clamp16_range.
Qed.

Lemma added_zero m d n m' : sound m -> added m d n (fun _ => 0) m' -> m' = m.
Proof.
  intros Hs H. apply (added_unique m d n (fun _ => 0) m' m H).
  unfold added. split; [reflexivity|]. split; [|reflexivity].
  intros i Hi. rewrite Z.add_0_r.
  pose proof (sound_cell m (d + i) Hs) as R. unfold is_s16 in R. unfold clamp16. lia.
Qed.

Lemma step_addr i : 2 * Z.of_nat i + 2 = 2 * Z.of_nat (S i).
Proof. lia. Qed.

(* One sample, for all four loops. *)
Lemma one_sample m d v :
  (d < length m)%nat -> sound m ->
  exists m1, store m (2 * Z.of_nat d) (saturatingAdd (cell m d) v) = Some m1 /\
             length m1 = length m /\ cell m1 d = clamp16 (cell m d + v) /\
             (forall j, j <> d -> cell m1 j = cell m j) /\ sound m1.
Proof.
  intros H Hs. rewrite saturating_clamp.
  destruct (store_ok m d (clamp16 (cell m d + v)) H) as (m1 & E & L & C & O & Q).
  exists m1. split; [exact E|]. split; [exact L|]. split; [exact C|]. split; [exact O|].
  apply Q; [exact Hs|apply clamp16_range].
Qed.

(* The plain mix. *)

Lemma mixLoop_ok k : forall fuel m d s,
  (k < fuel)%nat -> (d + k <= length m)%nat -> (s + k <= length m)%nat ->
  readable s d k -> sound m ->
  exists m', mixLoop fuel m (2 * Z.of_nat d) (2 * Z.of_nat (d + k)) (2 * Z.of_nat s) = Some m' /\
             added m d k (fun i => cell m (s + i)) m'.
Proof.
  induction k as [|k IH]; intros fuel m d s Hf Hd Hs R Hm;
    (destruct fuel as [|fuel]; [lia|]); cbn [mixLoop].
  - rewrite (proj2 (Z.ltb_ge _ _)) by lia. exists m. split; [reflexivity|apply added_nil].
  - rewrite (proj2 (Z.ltb_lt _ _)) by lia. rewrite (load_ok m d) by lia.
    rewrite (load_ok m s) by lia.
    destruct (one_sample m d (cell m s) ltac:(lia) Hm) as (m1 & E & L & C & O & S1).
    rewrite E. rewrite !step_addr.
    replace (d + S k)%nat with (S d + k)%nat by lia.
    unfold readable in R.
    destruct (IH fuel m1 (S d) (S s)) as (m' & E' & A);
      try lia; [unfold readable; lia|exact S1|].
    exists m'. split; [exact E'|].
    apply (added_cons m m1 m' d k (fun i => cell m (s + i)) L).
    + rewrite Nat.add_0_r. exact C.
    + exact O.
    + apply (added_ext m1 (S d) k (fun i => cell m1 (S s + i))); [|exact A].
      intros i Hi. rewrite O by lia. f_equal. lia.
Qed.

Lemma leveledLoop_ok l k : forall fuel m d s,
  (k < fuel)%nat -> (d + k <= length m)%nat -> (s + k <= length m)%nat ->
  readable s d k -> sound m ->
  (forall i, (i < k)%nat -> -2147483648 <= cell m (s + i) * l <= 2147483647) ->
  exists m', leveledLoop fuel m (2 * Z.of_nat d) (2 * Z.of_nat (d + k)) (2 * Z.of_nat s) l = Some m' /\
             added m d k (fun i => cell m (s + i) * l / 65536) m'.
Proof.
  induction k as [|k IH]; intros fuel m d s Hf Hd Hs R Hm Hp;
    (destruct fuel as [|fuel]; [lia|]); cbn [leveledLoop].
  - rewrite (proj2 (Z.ltb_ge _ _)) by lia. exists m. split; [reflexivity|apply added_nil].
  - rewrite (proj2 (Z.ltb_lt _ _)) by lia. rewrite (load_ok m d) by lia.
    rewrite (load_ok m s) by lia.
    pose proof (Hp O ltac:(lia)) as P0. rewrite Nat.add_0_r in P0.
    rewrite (leveled_some _ _ P0).
    destruct (one_sample m d (cell m s * l / 65536) ltac:(lia) Hm)
      as (m1 & E & L & C & O & S1).
    rewrite E. rewrite !step_addr.
    replace (d + S k)%nat with (S d + k)%nat by lia.
    unfold readable in R.
    destruct (IH fuel m1 (S d) (S s)) as (m' & E' & A);
      try lia; [unfold readable; lia|exact S1| |].
    + intros i Hi. rewrite O by lia. replace (S s + i)%nat with (s + S i)%nat by lia.
      apply Hp. lia.
    + exists m'. split; [exact E'|].
      apply (added_cons m m1 m' d k (fun i => cell m (s + i) * l / 65536) L).
      * rewrite Nat.add_0_r. exact C.
      * exact O.
      * apply (added_ext m1 (S d) k (fun i => cell m1 (S s + i) * l / 65536)); [|exact A].
        intros i Hi. rewrite O by lia.
        replace (S s + i)%nat with (s + S i)%nat by lia. reflexivity.
Qed.

(* A product that does not fit stops the loop. *)
Lemma leveledLoop_none l k : forall fuel m d s i,
  (d + k <= length m)%nat -> (s + k <= length m)%nat ->
  readable s d k -> sound m ->
  (i < k)%nat -> ~ (-2147483648 <= cell m (s + i) * l <= 2147483647) ->
  leveledLoop fuel m (2 * Z.of_nat d) (2 * Z.of_nat (d + k)) (2 * Z.of_nat s) l = None.
Proof.
  induction k as [|k IH]; intros fuel m d s i Hd Hs R Hm Hi Hp; [lia|].
  destruct fuel as [|fuel]; [reflexivity|]. cbn [leveledLoop].
  rewrite (proj2 (Z.ltb_lt _ _)) by lia. rewrite (load_ok m d) by lia.
  rewrite (load_ok m s) by lia.
  destruct i as [|i].
  - rewrite Nat.add_0_r in Hp. rewrite (leveled_none _ _ Hp). reflexivity.
  - destruct (leveled (cell m s) l) as [v|] eqn:Ev; [|reflexivity].
    destruct (one_sample m d v ltac:(lia) Hm) as (m1 & E & L & C & O & S1).
    rewrite E. rewrite !step_addr.
    replace (d + S k)%nat with (S d + k)%nat by lia.
    unfold readable in R.
    apply (IH fuel m1 (S d) (S s) i); try lia; [unfold readable; lia|exact S1|].
    rewrite O by lia. replace (S s + i)%nat with (s + S i)%nat by lia. exact Hp.
Qed.

(* The ramp. *)

Lemma dynStep_ok m d s l :
  (d < length m)%nat -> (s < length m)%nat -> sound m ->
  exists m1, dynStep m (2 * Z.of_nat d) (2 * Z.of_nat s) l = Some m1 /\
             length m1 = length m /\
             cell m1 d = clamp16 (cell m d + dynLeveled (cell m s) l) /\
             (forall j, j <> d -> cell m1 j = cell m j) /\ sound m1.
Proof.
  intros Hd Hs Hm. unfold dynStep. rewrite (load_ok m d) by exact Hd.
  rewrite (load_ok m s) by exact Hs. apply one_sample; assumption.
Qed.

Lemma half_SS i : (S (S i) / 2 = S (i / 2))%nat.
Proof.
  replace (S (S i)) with (i + 1 * 2)%nat by lia.
  rewrite Nat.div_add by lia. lia.
Qed.

(* The level of the [f]-th frame. *)
Definition rampLevel (l st : Z) (f : nat) : Z := (l + Z.of_nat f * st) mod 4294967296.

Lemma ramp_next l st f : rampLevel (toU32 (l + st)) st f = rampLevel l st (S f).
Proof.
  unfold rampLevel, toU32. rewrite Zplus_mod_idemp_l. f_equal. lia.
Qed.

Lemma dynLoop_ok st k : forall fuel m d s l,
  (k < fuel)%nat -> (d + 2 * k <= length m)%nat -> (s + 2 * k <= length m)%nat ->
  readable s d (2 * k) -> sound m -> 0 <= l < 4294967296 ->
  exists m', dynLoop fuel m (2 * Z.of_nat d) (2 * Z.of_nat (d + 2 * k)) (2 * Z.of_nat s) l st = Some m' /\
             added m d (2 * k)
               (fun i => dynLeveled (cell m (s + i)) (rampLevel l st (i / 2))) m'.
Proof.
  induction k as [|k IH]; intros fuel m d s l Hf Hd Hs R Hm Hl;
    (destruct fuel as [|fuel]; [lia|]); cbn [dynLoop].
  - rewrite (proj2 (Z.ltb_ge _ _)) by lia. exists m. split; [reflexivity|apply added_nil].
  - rewrite (proj2 (Z.ltb_lt _ _)) by lia.
    destruct (dynStep_ok m d s l ltac:(lia) ltac:(lia) Hm) as (m1 & E1 & L1 & C1 & O1 & S1).
    rewrite E1. rewrite !step_addr.
    destruct (dynStep_ok m1 (S d) (S s) l ltac:(lia) ltac:(lia) S1)
      as (m2 & E2 & L2 & C2 & O2 & S2).
    rewrite E2.
    replace (2 * Z.of_nat d + 4) with (2 * Z.of_nat (S (S d))) by lia.
    replace (2 * Z.of_nat s + 4) with (2 * Z.of_nat (S (S s))) by lia.
    replace (d + 2 * S k)%nat with (S (S d) + 2 * k)%nat by lia.
    unfold readable in R.
    destruct (IH fuel m2 (S (S d)) (S (S s)) (toU32 (l + st))) as (m' & E' & A);
      try lia; [unfold readable; lia|exact S2|unfold toU32; apply Z.mod_pos_bound; lia|].
    exists m'. split; [exact E'|].
    assert (rampLevel l st 0 = l) as Hr.
    { unfold rampLevel. cbn [Z.of_nat]. rewrite Z.mul_0_l, Z.add_0_r.
      apply Z.mod_small. exact Hl. }
    replace (2 * S k)%nat with (S (S (2 * k))) by lia.
    apply (added_cons m m1 m' d _ _ L1).
    + rewrite Nat.add_0_r. cbn [Nat.div Nat.divmod fst]. rewrite Hr. exact C1.
    + exact O1.
    + cbv beta. apply (added_cons m1 m2 m' (S d) _ _ L2).
      * rewrite C2. f_equal. f_equal. cbn [Nat.div Nat.divmod fst Nat.sub]. rewrite Hr.
        rewrite (O1 (S s)) by lia. f_equal. f_equal. lia.
      * exact O2.
      * cbv beta. apply (added_ext m2 (S (S d)) (2 * k)
           (fun i => dynLeveled (cell m2 (S (S s) + i)) (rampLevel (toU32 (l + st)) st (i / 2))));
          [|exact A].
        intros i Hi. rewrite half_SS, ramp_next. rewrite O2 by lia. rewrite O1 by lia.
        f_equal. f_equal. lia.
Qed.

(* Asserts, sizes. *)

Lemma formatEq_iff a b : formatEq a b = true <-> a = b.
Proof.
  destruct a as [c t s], b as [c' t' s']. unfold formatEq. cbn.
  rewrite !andb_true_iff, !Z.eqb_eq. split.
  - intros [[-> H] ->]. destruct t, t'; cbn in H; try discriminate; reflexivity.
  - intros [= -> -> ->]. destruct t'; cbn; auto.
Qed.

Lemma mixAsserts_alike d s :
  alike d s -> sampleType (format d) = S16 -> mixAsserts d s = true.
Proof.
  intros (H1 & H2 & H3) Ht. unfold mixAsserts. rewrite H1, H2, Ht, !Z.eqb_refl.
  rewrite (proj2 (formatEq_iff _ _) H3). reflexivity.
Qed.

Lemma mixAsserts_inv d s :
  mixAsserts d s = true -> alike d s /\ sampleType (format d) = S16.
Proof.
  unfold mixAsserts, alike. rewrite !andb_true_iff, !Z.eqb_eq, formatEq_iff.
  intros [[[H1 H2] H3] H4]. split; [auto|]. destruct (sampleType (format d)); [reflexivity|discriminate].
Qed.

Lemma end_at m b i n : buffer_at m b i n -> getEndPtr b = 2 * Z.of_nat (i + n).
Proof.
  intros (H1 & H2 & H3 & H4 & H5 & H6 & H7). unfold getEndPtr, getSizeBytes, toU32.
  rewrite H6. replace (numSamples b * (2 * numChannels (format b))) with (2 * Z.of_nat n) by lia.
  rewrite Z.mod_small by lia. lia.
Qed.

Lemma mix_ok m d s i j n :
  sound m -> buffer_at m d i n -> buffer_at m s j n -> alike d s -> readable j i n ->
  exists m', mix m d s = Some m' /\ added m i n (fun k => cell m (j + k)) m'.
Proof.
  intros Hm Hd Hs Ha R. unfold mix.
  pose proof (end_at _ _ _ _ Hd) as Ee.
  destruct Hd as (D1 & D2 & D3 & D4 & _). destruct Hs as (S1 & S2 & _).
  rewrite (mixAsserts_alike d s Ha D4). rewrite Ee, D1, S1.
  apply mixLoop_ok; try assumption. lia.
Qed.

Lemma mixLeveled_ok m d s i j n l :
  sound m -> buffer_at m d i n -> buffer_at m s j n -> alike d s -> readable j i n ->
  (forall k, (k < n)%nat -> -2147483648 <= cell m (j + k) * l <= 2147483647) ->
  exists m', mixLeveled m d s l = Some m' /\
             added m i n (fun k => cell m (j + k) * l / 65536) m'.
Proof.
  intros Hm Hd Hs Ha R Hp. unfold mixLeveled.
  pose proof (end_at _ _ _ _ Hd) as Ee.
  destruct Hd as (D1 & D2 & D3 & D4 & _). destruct Hs as (S1 & S2 & _).
  rewrite (mixAsserts_alike d s Ha D4). rewrite Ee, D1, S1.
  apply leveledLoop_ok; try assumption. lia.
Qed.

Lemma mixLeveled_defined m d s i j n l :
  sound m -> buffer_at m d i n -> buffer_at m s j n -> alike d s -> readable j i n ->
  (mixLeveled m d s l <> None <->
   forall k, (k < n)%nat -> -2147483648 <= cell m (j + k) * l <= 2147483647).
Proof.
  intros Hm Hd Hs Ha R. split.
  - intros Hn k Hk.
    destruct (Z_le_dec (-2147483648) (cell m (j + k) * l)) as [H1|H1];
      [destruct (Z_le_dec (cell m (j + k) * l) 2147483647) as [H2|H2]; [auto|]|].
    + exfalso. apply Hn. unfold mixLeveled.
      pose proof (end_at _ _ _ _ Hd) as Ee.
      destruct Hd as (D1 & D2 & D3 & D4 & _). destruct Hs as (S1 & S2 & _).
      rewrite (mixAsserts_alike d s Ha D4). rewrite Ee, D1, S1.
      apply (leveledLoop_none l n _ m i j k); auto; lia.
    + exfalso. apply Hn. unfold mixLeveled.
      pose proof (end_at _ _ _ _ Hd) as Ee.
      destruct Hd as (D1 & D2 & D3 & D4 & _). destruct Hs as (S1 & S2 & _).
      rewrite (mixAsserts_alike d s Ha D4). rewrite Ee, D1, S1.
      apply (leveledLoop_none l n _ m i j k); auto; lia.
  - intros Hp. destruct (mixLeveled_ok m d s i j n l Hm Hd Hs Ha R Hp) as (m' & E & _).
    rewrite E. discriminate.
Qed.

Lemma mixDyn_ok m d s i j n l st :
  sound m -> buffer_at m d i (2 * n) -> buffer_at m s j (2 * n) -> alike d s ->
  format d = StereoS16 -> readable j i (2 * n) -> 0 <= l < 4294967296 ->
  exists m', mixDynLevel m d s l st = Some m' /\
             added m i (2 * n)
               (fun k => dynLeveled (cell m (j + k)) (rampLevel l st (k / 2))) m'.
Proof.
  intros Hm Hd Hs (A1 & A2 & A3) Hf R Hl. unfold mixDynLevel.
  pose proof (end_at _ _ _ _ Hd) as Ee.
  destruct Hd as (D1 & D2 & D3 & D4 & _). destruct Hs as (S1 & S2 & _).
  rewrite A1, A2, !Z.eqb_refl, (proj2 (formatEq_iff _ _) A3), (proj2 (formatEq_iff _ _) Hf).
  cbn [andb]. rewrite Ee, D1, S1.
  apply dynLoop_ok; try assumption. lia.
Qed.

Lemma mixDyn_exact m d s i j n l st :
  sound m -> buffer_at m d i (2 * n) -> buffer_at m s j (2 * n) -> alike d s ->
  format d = StereoS16 -> readable j i (2 * n) -> 0 <= l < 4294967296 ->
  (forall f, (f < n)%nat -> 0 <= l + Z.of_nat f * st <= 1073741824) ->
  exists m', mixDynLevel m d s l st = Some m' /\
             added m i (2 * n)
               (fun k => cell m (j + k) * ((l + Z.of_nat (k / 2) * st) / 16384) / 65536) m'.
Proof.
  intros Hm Hd Hs Ha Hf R Hl Hr.
  destruct (mixDyn_ok m d s i j n l st Hm Hd Hs Ha Hf R Hl) as (m' & E & A).
  exists m'. split; [exact E|]. revert A. apply added_ext. intros k Hk.
  assert (k / 2 < n)%nat as Hk2 by (apply Nat.div_lt_upper_bound; lia).
  pose proof (Hr (k / 2)%nat Hk2) as Hb.
  unfold rampLevel. rewrite Z.mod_small by lia.
  rewrite dyn_exact; [reflexivity|apply sound_cell; exact Hm|exact Hb].
Qed.
