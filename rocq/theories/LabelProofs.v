From Verif Require Import LabelModel LabelSpec VarintProofs StringViewProofs HashMapSpec HashMapSim HashMapProofs.
From Coq Require Import ZifyBool ZifyNat.
Ltac Zify.zify_post_hook ::= Z.div_mod_to_equations.

(* ---- reading the pool ---- *)
Lemma decode_more b : forall a v n r, decode_loop v a = Some (n, r) -> decode_loop v (a ++ b) = Some (n, r ++ b).
Proof.
  induction a as [|c a IH]; intros v n r; cbn [decode_loop app]; [discriminate|]. cbv zeta.
  destruct (Z.shiftr c 7 =? 0); [intros H; injection H as <- <-; reflexivity|apply IH].
Qed.
Lemma zlen_app' {A} (a b : list A) : zlen (a ++ b) = zlen a + zlen b.
Proof. unfold zlen. rewrite app_length. lia. Qed.
Lemma viewAt_more p q i s : viewAt p i = Some s -> viewAt (p ++ q) i = Some s.
Proof.
  unfold viewAt. intros H. destruct ((0 <=? i) && (i <? zlen p)) eqn:E; [|discriminate].
  assert (Hi : 0 <= i < zlen p) by lia. rewrite zlen_app'.
  replace ((0 <=? i) && (i <? zlen p + zlen q)) with true by (unfold zlen in *; lia).
  rewrite skipn_app. replace (Z.to_nat i - length p)%nat with 0%nat by (unfold zlen in *; lia). cbn [skipn].
  destruct (decodeValue (skipn (Z.to_nat i) p)) as [[n r]|] eqn:D; [|discriminate].
  unfold decodeValue in *. rewrite (decode_more q _ _ _ _ D).
  destruct (n <=? zlen r) eqn:En; [|discriminate]. rewrite zlen_app'.
  replace (n <=? zlen r + zlen q) with true by (unfold zlen in *; lia).
  rewrite firstn_app. replace (Z.to_nat n - length r)%nat with 0%nat by (unfold zlen in *; lia).
  cbn [firstn]. rewrite app_nil_r. exact H.
Qed.
Lemma viewAt_new p s : zlen s < 2 ^ 32 -> viewAt (p ++ encodeValue (zlen s) ++ s) (zlen p) = Some s.
Proof.
  intros Hs. assert (H0 : 0 <= zlen s < 2 ^ 32) by (unfold zlen in *; lia). unfold viewAt.
  pose proof (varint_roundtrip (zlen s) s H0) as (D & L & G & _).
  replace ((0 <=? zlen p) && _) with true by (rewrite !zlen_app'; unfold zlen in *; lia).
  rewrite skipn_app. replace (Z.to_nat (zlen p)) with (length p) by (unfold zlen; lia).
  rewrite skipn_all, Nat.sub_diag. cbn [skipn app]. rewrite D, Z.leb_refl.
  replace (Z.to_nat (zlen s)) with (length s) by (unfold zlen; lia). rewrite firstn_all. reflexivity.
Qed.

Lemma enc_len n : 0 <= n < 2 ^ 32 -> zlen (encodeValue n) = Z.of_nat (getEncLen n) /\ 1 <= zlen (encodeValue n) <= 5.
Proof. intros H. destruct (varint_roundtrip n [] H) as (_ & L & G & _). unfold zlen. rewrite L. lia. Qed.

(* ---- comparing strings ---- *)
Lemma cmp_loop_none a : forall b, compare_loop a b = None -> length a = length b -> a = b.
Proof.
  induction a as [|x a IH]; intros [|y b]; cbn [compare_loop length]; try (intros; lia); auto.
  destruct (Z.eqb_spec (x - y) 0); [|discriminate]. intros H L. f_equal; [lia|]. apply IH; [exact H|lia].
Qed.
Lemma cmp_loop_some a : forall b d, compare_loop a b = Some d -> d <> 0 /\ a <> b.
Proof.
  induction a as [|x a IH]; intros [|y b] d; cbn [compare_loop]; try discriminate.
  destruct (Z.eqb_spec (x - y) 0).
  - intros H. destruct (IH _ _ H) as (H1 & H2). split; [exact H1|]. congruence.
  - intros H. injection H as <-. split; [exact n|]. intros E. injection E as -> _. lia.
Qed.
Lemma cmp_eq a b : zlen a < 2 ^ 32 -> zlen b < 2 ^ 32 -> (sv_compare a b =? 0) = bytes_eqb a b.
Proof.
  intros Ha Hb. unfold sv_compare. destruct (compare_loop a b) as [d|] eqn:E.
  - destruct (cmp_loop_some _ _ _ E) as (H1 & H2). destruct (bytes_eqb a b) eqn:B; [|lia].
    apply bytes_eqb_eq in B. contradiction.
  - destruct (Z.eq_dec (zlen a) (zlen b)) as [L|L].
    + assert (a = b) by (apply cmp_loop_none; [exact E|unfold zlen in L; lia]). subst b.
      replace (zlen a - zlen a) with 0 by lia. change (s32 (u32 0) =? 0) with true.
      symmetry. apply bytes_eqb_eq. reflexivity.
    + destruct (bytes_eqb a b) eqn:B; [apply bytes_eqb_eq in B; congruence|].
      assert (s32 (u32 (zlen a - zlen b)) <> 0); [|lia].
      unfold s32, to_signed, u32. change (32 - 1) with 31. change (2 ^ 32) with 4294967296 in *. change (2 ^ 31) with 2147483648.
      assert (0 <= zlen a /\ 0 <= zlen b) by (unfold zlen; lia).
      destruct (_ <? _) eqn:F; lia.
Qed.

(* ---- the invariant ---- *)
Definition RL (p : list Z) (x : lkey * unit) (y : list Z * Z) : Prop :=
  zlen (fst y) < 2 ^ 32 /\
  match fst x with Id i => snd y = i /\ 0 < i /\ viewAt p i = Some (fst y) | Unset s => fst y = s /\ snd y = 0 end.

Definition tbl := list (list Z * Z).
Definition weight (l : list (list Z)) : Z := fold_right (fun s n => 5 + zlen s + n) 0 l.

Section Labels.
Context (hash : list Z -> Z) (Hhash : forall s, 0 <= hash s < 2 ^ 32).

Notation sim' := (sim hash (V := Z)).
Notation lmatch p := (label_match p).

Lemma RL_match p k x y : zlen k < 2 ^ 32 -> RL p x y -> lmatch p (fst x) (Unset k) = bytes_eqb (fst y) k.
Proof.
  intros Hk (H1 & H2). destruct (fst x) as [i|s]; cbn [label_match].
  - destruct H2 as (_ & _ & ->). apply cmp_eq; assumption.
  - destruct H2 as (<- & _). apply cmp_eq; assumption.
Qed.
Lemma RL_more p q x y : RL p x y -> RL (p ++ q) x y.
Proof.
  intros (H1 & H2). split; [exact H1|]. destruct (fst x); [|exact H2]. destruct H2 as (A & B & C). repeat split; auto.
  apply viewAt_more. exact C.
Qed.

Record linv (m : labels) (M : tbl) : Prop := {
  L_pool : zlen (pool m) <= 2 ^ 30;
  L_zero : viewAt (pool m) 0 = Some [];
  L_map : exists h, Rm (RL (pool m)) (strToIndex m) h /\ sim' h M /\ clob h = false /\ (zlen M <= 64 -> zlen (cells h) <= 128);
  L_ent : Forall (fun x => 0 < snd x < zlen (pool m) /\ viewAt (pool m) (snd x) = Some (fst x)) M;
  L_labels : NoDup (map snd M);
  L_count : zlen M < zlen (pool m) <= 1 + weight (map fst M) }.

Lemma bok a b : bytes_eqb a b = true <-> a = b.
Proof. apply bytes_eqb_eq. Qed.

Lemma linv_new : exists m, new_labels = Some m /\ linv m [].
Proof.
  pose proof (create_simul (K1 := lkey) (V1 := unit) (K2 := list Z) (V2 := Z) (RL [0]) 8) as C.
  destruct (create_sim (V := Z) hash 3 ltac:(lia)) as (h & H1 & H2 & H3 & H4).
  change (2 ^ 3) with 8 in *. rewrite H1 in C. unfold new_labels.
  destruct (create 8) as [m|] eqn:E; [|contradiction]. exists (mkl [0] m). split; [reflexivity|].
  split; cbn [pool strToIndex map].
  - change (zlen [0]) with 1. lia.
  - reflexivity.
  - exists h. split; [exact C|]. split; [exact H2|]. split; [exact H3|]. rewrite H4. lia.
  - constructor.
  - constructor.
  - change (zlen [0]) with 1. change (zlen (A := list Z * Z) []) with 0. change (weight []) with 0. lia.
Qed.

Lemma linv_pos m M s l : linv m M -> In (s, l) M -> 0 < l < zlen (pool m) /\ viewAt (pool m) l = Some s.
Proof. intros H Hi. exact (proj1 (Forall_forall _ _) (L_ent _ _ H) _ Hi). Qed.

Lemma found_in m M h k idx v : linv m M -> forall t, Rt (RL (pool m)) t (cells h) ->
  In (k, v) M -> it (getc (cells h) idx) = Some (k, v) -> item t idx = Some (Id v, tt).
Proof.
  intros H t Ht Hi E. pose proof (item_simul _ _ _ idx Ht) as G. unfold item in *. rewrite E in G.
  destruct (it (getc t idx)) as [[x []]|]; [|contradiction]. destruct (linv_pos _ _ _ _ H Hi) as (P & _).
  destruct G as (_ & G). cbn [fst snd] in G. destruct x as [i|s]; [destruct G as (-> & _); reflexivity|]. lia.
Qed.

Lemma weight_nonneg l : 0 <= weight l.
Proof. induction l as [|s l IH]; cbn [weight fold_right]; [lia|]. fold (weight l). unfold zlen. lia. Qed.

Lemma store_new (M : tbl) s v : lookup bytes_eqb M s = None -> store bytes_eqb M s v = (s, v) :: M.
Proof. intros E. unfold store. rewrite remove_absent; [reflexivity|exact bok|]. apply (lookup_none bytes_eqb bok). exact E. Qed.

Lemma zlen_pos {A} (l : list A) : 0 <= zlen l.
Proof. unfold zlen. lia. Qed.

Lemma add_entry (m : labels) M p h1 h2 i s : linv m M -> lookup bytes_eqb M s = None -> zlen s < 2 ^ 32 ->
  p = pool m ++ encodeValue (zlen s) ++ s -> zlen p <= 2 ^ 30 ->
  Rm (RL (pool m)) h1 h2 -> sim' (mkm (assign (cells h2) i (s, zlen (pool m))) (HashMapModel.pop h2) (clob h2)) ((s, zlen (pool m)) :: M) ->
  clob h2 = false -> (zlen M <= 64 -> zlen (assign (cells h2) i (s, zlen (pool m))) <= 128) ->
  linv (mkl p (mkm (assign (cells h1) i (Id (zlen (pool m)), tt)) (HashMapModel.pop h1) (clob h1))) ((s, zlen (pool m)) :: M).
Proof.
  intros H Hn Hs Ep Hp (R1 & R2 & R3) HS HC HB. pose proof (L_count _ _ H) as Hc. pose proof (zlen_pos M) as HM.
  pose proof (viewAt_new (pool m) s Hs) as V. rewrite <- Ep in V.
  destruct (enc_len (zlen s) (conj (zlen_pos s) Hs)) as (HL & Le).
  assert (Lp : zlen p = zlen (pool m) + zlen (encodeValue (zlen s)) + zlen s) by (rewrite Ep, !zlen_app'; lia).
  pose proof (zlen_pos s) as Hs0.
  assert (Lc : zlen ((s, zlen (pool m)) :: M) = zlen M + 1) by (unfold zlen; cbn [length]; lia).
  split; cbn [pool strToIndex].
  - exact Hp.
  - rewrite Ep. apply viewAt_more. exact (L_zero _ _ H).
  - eexists. split; [|split; [exact HS|split; [exact HC|]]].
    + split; [|split; [exact R2|exact R3]]. cbn [cells]. apply assign_simul.
      * apply (Rt_mono (RL (pool m))); [|exact R1]. intros x y. rewrite Ep. apply RL_more.
      * split; [exact Hs|]. cbn [fst snd]. split; [reflexivity|]. split; [lia|exact V].
    + cbn [cells]. intros. apply HB. lia.
  - constructor; [cbn [fst snd]; split; [lia|exact V]|]. pose proof (L_ent _ _ H) as HE. rewrite Forall_forall in *.
    intros x Hx. destruct (HE x Hx) as (A & B). split; [lia|]. rewrite Ep. apply viewAt_more. exact B.
  - cbn [map snd]. constructor; [|exact (L_labels _ _ H)]. intros Hi. apply in_map_iff in Hi. destruct Hi as ((s' & l) & E & Hi).
    cbn [snd] in E. destruct (linv_pos _ _ _ _ H Hi) as (A & _). lia.
  - cbn [map fst weight fold_right]. fold (weight (map fst M)). lia.
Qed.

Lemma intern_ok rounds m M s ys : linv m M -> zlen s < 2 ^ 32 ->
  match intern hash rounds m s with
  | None => (2 <= rounds)%nat -> zlen M <= 64 -> lookup bytes_eqb M s = None /\ 2 ^ 30 < zlen (pool m) + 5 + zlen s
  | Some (m', l) => exists M', lspec M ys (Intern s) (Lab l) M' /\ linv m' M' /\ incl (map fst M') (s :: map fst M) 
  end.
Proof.
  intros H Hs. unfold intern. destruct (L_map _ _ H) as (h & R0 & S0 & C0 & B0).
  pose proof (insert_simul (lmatch (pool m)) (label_hash hash) tt bytes_eqb hash 0 (RL (pool m)) (Unset s) s eq_refl
                (fun x y => RL_match (pool m) s x y Hs) (conj Hs (conj eq_refl eq_refl)) rounds _ _ R0) as G.
  destruct (insert (lmatch (pool m)) (label_hash hash) tt rounds (strToIndex m) (Unset s)) as [[[h1 i1] b1]|].
  2:{ destruct (insert bytes_eqb hash 0 rounds h s) eqn:E2; [contradiction|]. intros Hr Hz. exfalso.
      destruct S0 as (S1 & S2 & _).
      apply (insert_total bytes_eqb hash 0 bok Hhash rounds h s) in E2; auto.
      destruct S1 as (C & _ & S1). rewrite S1, (zlen_perm _ _ S2). exact Hz. }
  destruct (insert bytes_eqb hash 0 rounds h s) as [[[h2 i2] b2]|] eqn:E2; [|contradiction].
  destruct G as (R1 & -> & ->). pose proof (L_count _ _ H) as Hc. pose proof (L_pool _ _ H) as Hp.
  assert (Hz : zlen M < 2 ^ 30) by lia.
  destruct (insert_sim bytes_eqb hash 0 bok Hhash rounds h M s h2 i2 b2 S0 Hz E2) as (K1 & K2 & K3 & K4).
  destruct K3 as [(-> & K5 & v & K6 & K7)|(-> & K5 & K6 & K7)].
  - assert (Hin : In (s, v) M) by (apply (lookup_in bytes_eqb bok); exact K6).
    rewrite (found_in m M h2 s i2 v H (cells h1) (proj1 R1) Hin K7).
    exists M. split; [constructor; exact Hin|]. split; [|apply incl_tl, incl_refl]. destruct H. split; cbn [pool strToIndex]; auto.
    exists h2. split; [exact R1|]. split; [|split; [congruence|]].
    + split; [exact K1|]. split; [exact K5|]. destruct S0 as (_ & _ & S0). exact S0.
    + intros. apply K4; auto.
  - destruct (enc_len (zlen s) (conj (zlen_pos s) Hs)) as (HL & Le).
      set (entry := encodeValue (zlen s) ++ s).
    assert (Lz : zlen entry = zlen (encodeValue (zlen s)) + zlen s) by apply zlen_app'.
    pose proof (zlen_pos s) as Hs0.
    set (g1 := negb _). set (g2 := negb _).
    assert (Hg2 : g2 = false) by (subst g2; lia).
    assert (Hg1 : g1 = true -> 2 ^ 32 <= zlen s + 5).
    { subst g1. replace (zlen entry) with (Z.of_nat (getEncLen (zlen s)) + zlen s) by (rewrite Lz, HL; reflexivity).
      unfold u32. intros E. destruct (Z.lt_ge_cases (zlen s + 5) (2 ^ 32)); [|assumption].
      rewrite Z.mod_small in E by lia. rewrite Z.eqb_refl in E. discriminate. }
    rewrite Hg2, orb_false_r. clearbody g1. destruct g1.
    { intros. split; [exact K5|]. specialize (Hg1 eq_refl). pose proof (zlen_pos (pool m)). lia. }
    unfold pool_append, NumReservedBytes. destruct (Z.leb_spec (zlen (pool m) + zlen entry) (2 ^ 30)) as [Hfit|Hfit].
    2:{ intros. split; [exact K5|lia]. }
    exists ((s, zlen (pool m)) :: M). split; [|split].
    + constructor.
      * intros (l & Hl). apply (proj1 (lookup_none bytes_eqb bok M s) K5 l Hl).
      * pose proof (zlen_pos M). lia.
      * intros Hi. apply in_map_iff in Hi. destruct Hi as ((s' & l) & E & Hi). cbn [snd] in E.
        destruct (linv_pos _ _ _ _ H Hi) as (A & _). lia.
    + assert (ST : step bytes_eqb hash 0 rounds h (Assign s (zlen (pool m))) =
        Some (mkm (assign (cells h2) i2 (s, zlen (pool m))) (HashMapModel.pop h2) (clob h2), Item false (zlen (pool m)))).
      { cbn [step]. rewrite E2. unfold item. rewrite K7. reflexivity. }
      destruct (step_ok bytes_eqb hash 0 bok Hhash rounds h M _ _ _ S0 Hz C0 ST ltac:(cbn [clob]; congruence)) as (_ & T2 & T3).
      cbn [after] in T2. rewrite (store_new _ _ _ K5) in T2.
      apply (add_entry m M _ h1 h2 i2 s); auto.
      * unfold entry in *. rewrite zlen_app'. exact Hfit.
      * congruence.
    + cbn [map fst]. apply incl_refl.
Qed.

Lemma query_ok m M s ys : linv m M -> zlen s < 2 ^ 32 ->
  exists l, query hash m s = Some l /\ lspec M ys (Query s) (Lab l) M.
Proof.
  intros H Hs. unfold query. destruct (L_map _ _ H) as (h & R0 & S0 & C0 & B0).
  pose proof (iof_sim (lmatch (pool m)) (label_hash hash) tt bytes_eqb hash 0 (RL (pool m)) (Unset s) s eq_refl
                (fun x y => RL_match (pool m) s x y Hs) (conj Hs (conj eq_refl eq_refl)) _ _ false (proj1 R0)) as G.
  destruct S0 as ((C & SI & SP) & S1 & S2).
  destruct (find_ok bytes_eqb hash 0 bok Hhash (cells h) C s SI) as [(p & prev & v & F1 & F2 & F3)|(F1 & F2)]; rewrite F1 in G;
    destruct (insertOrFind (lmatch (pool m)) (label_hash hash) tt (cells (strToIndex m)) (Unset s) false) as [p' prev'| | | |];
    cbn [Rf] in G; try contradiction.
  - destruct G as (-> & ->). assert (Hin : In (s, v) M).
    { rewrite <- S1. apply in_items; [exact (I_n _ _ _ SI)|eauto]. }
    rewrite (found_in m M h s p v H _ (proj1 R0) Hin F2). exists v. split; [reflexivity|constructor; exact Hin].
  - exists 0. split; [reflexivity|]. apply ls_unknown. intros (l & Hl). apply (F2 l). rewrite S1. exact Hl.
Qed.

Lemma view_ok m M ys j : linv m M -> (answered ys j = 0 \/ exists s, In (s, answered ys j) M) ->
  exists s, viewAt (pool m) (answered ys j) = Some s /\ lspec M ys (ViewOf j) (Str s) M.
Proof.
  intros H [E|(s & E)].
  - exists []. rewrite E. split; [exact (L_zero _ _ H)|]. apply ls_view_invalid. exact E.
  - exists s. destruct (linv_pos _ _ _ _ H E) as (_ & V). split; [exact V|]. apply ls_view. exact E.
Qed.

(* ---- whole histories ---- *)
Definition hist_ok (ys : list lout) (M : tbl) := forall j, answered ys j = 0 \/ exists s, In (s, answered ys j) M.
Lemma hist_snoc ys y M M' : hist_ok ys M -> incl M M' ->
  match y with Lab l => l = 0 \/ exists s, In (s, l) M' | Str _ => True end -> hist_ok (ys ++ [y]) M'.
Proof.
  intros H I Hy j. unfold answered. destruct (Nat.lt_ge_cases j (length ys)) as [L|L].
  - rewrite nth_error_app1 by lia. destruct (H j) as [E|(s & E)]; unfold answered in E; [auto|]. right. exists s. apply I. exact E.
  - rewrite nth_error_app2 by lia. destruct (j - length ys)%nat as [|n]; cbn [nth_error]; [destruct y; auto|]. destruct n; auto.
Qed.
Lemma lspec_hist M ys o y M' : lspec M ys o y M' -> hist_ok ys M -> hist_ok (ys ++ [y]) M'.
Proof.
  intros S H. destruct S; apply (hist_snoc _ _ M); auto using incl_refl.
  - right. eauto.
  - apply incl_tl, incl_refl.
  - right. exists s. left. reflexivity.
  - right. eauto.
Qed.

Definition strs (os : list lop) : list (list Z) := flat_map (fun o => match o with Intern s => [s] | _ => [] end) os.

Lemma lstep_ok rounds m M ys o : linv m M -> hist_ok ys M -> zlen (op_string o) < 2 ^ 32 ->
  match lstep hash rounds m ys o with
  | None => (2 <= rounds)%nat -> zlen M <= 64 -> exists s, o = Intern s /\ lookup bytes_eqb M s = None /\ 2 ^ 30 < zlen (pool m) + 5 + zlen s
  | Some (m', y) => exists M', lspec M ys o y M' /\ linv m' M' /\ incl (map fst M') (strs [o] ++ map fst M)
  end.
Proof.
  intros H Hh Ho. destruct o as [s|s|j]; cbn [lstep op_string strs flat_map app] in *.
  - pose proof (intern_ok rounds m M s ys H Ho) as G. destruct (intern hash rounds m s) as [[m' l]|]; [exact G|].
    intros Hr Hz. exists s. split; [reflexivity|]. exact (G Hr Hz).
  - destruct (query_ok m M s ys H Ho) as (l & -> & S). exists M. split; [exact S|]. split; [exact H|apply incl_refl].
  - destruct (view_ok m M ys j H (Hh j)) as (s & -> & S). exists M. split; [exact S|]. split; [exact H|apply incl_refl].
Qed.

Lemma lrun_ok rounds os : forall m M ys m' zs, linv m M -> hist_ok ys M -> Forall (fun o => zlen (op_string o) < 2 ^ 32) os ->
  lrun hash rounds m ys os = Some (m', zs) -> lspec_run M ys os zs.
Proof.
  induction os as [|o os IH]; intros m M ys m' zs H Hh Ho E; cbn [lrun] in E.
  - injection E as <- <-. constructor.
  - apply Forall_cons_iff in Ho. destruct Ho as (Ho & Ho'). pose proof (lstep_ok rounds m M ys o H Hh Ho) as G.
    destruct (lstep hash rounds m ys o) as [[m1 y]|]; [|discriminate]. destruct G as (M1 & G1 & G2 & _).
    apply (lr_cons M ys o y M1); [exact G1|]. apply (IH m1 M1 _ m' zs G2); auto. apply (lspec_hist M ys o); auto.
Qed.

Lemma weight_perm a b : Permutation a b -> weight a = weight b.
Proof. induction 1; cbn [weight fold_right] in *; try fold (weight l) in *; try fold (weight l') in *; lia. Qed.
Lemma weight_app a b : weight (a ++ b) = weight a + weight b.
Proof. induction a as [|x a IH]; cbn [weight fold_right app]; [reflexivity|]. fold (weight (a ++ b)) (weight a). lia. Qed.
Lemma weight_incl a : forall b, NoDup a -> incl a b -> weight a <= weight b.
Proof.
  induction a as [|x a IH]; intros b N I; cbn [weight fold_right]; [apply weight_nonneg|]. fold (weight a).
  destruct (in_split x b (I x (or_introl eq_refl))) as (b1 & b2 & ->). inversion N as [|? ? N1 N2]; subst.
  rewrite weight_app. cbn [weight fold_right]. fold (weight b2).
  assert (I' : incl a (b1 ++ b2)).
  { intros y Hy. specialize (I y (or_intror Hy)). rewrite in_app_iff in *. cbn [In] in I. intuition congruence. }
  specialize (IH _ N2 I'). rewrite weight_app in IH. lia.
Qed.
Lemma zlen_incl {A} (a b : list A) : NoDup a -> incl a b -> zlen a <= zlen b.
Proof. intros N I. pose proof (NoDup_incl_length N I). unfold zlen. lia. Qed.
Lemma weight_concat l : weight l = 5 * zlen l + zlen (concat l).
Proof.
  induction l as [|x l IH]; cbn [weight fold_right concat]; [reflexivity|]. fold (weight l). rewrite zlen_app', IH.
  unfold zlen. cbn [length]. lia.
Qed.

Lemma linv_keys m M : linv m M -> NoDup (map fst M).
Proof. intros H. destruct (L_map _ _ H) as (h & _ & (_ & _ & N) & _). exact N. Qed.

Lemma lrun_total rounds L os : (2 <= rounds)%nat -> zlen L <= 64 -> zlen (concat L) <= 2 ^ 30 - 400 ->
  forall m M ys, linv m M -> hist_ok ys M -> Forall (fun o => zlen (op_string o) < 2 ^ 32) os ->
  incl (map fst M) L -> incl (strs os) L -> exists m' zs, lrun hash rounds m ys os = Some (m', zs).
Proof.
  intros Hr HL HW. assert (W : weight L <= 2 ^ 30 - 80) by (rewrite weight_concat; lia).
  induction os as [|o os IH]; intros m M ys H Hh Ho I1 I2; cbn [lrun]; [eauto|].
  apply Forall_cons_iff in Ho. destruct Ho as (Ho & Ho'). pose proof (lstep_ok rounds m M ys o H Hh Ho) as G.
  assert (I3 : incl (strs [o]) L /\ incl (strs os) L).
  { split; intros x Hx; apply I2; cbn [strs flat_map] in *; rewrite in_app_iff in *; [destruct Hx as [Hx|[]]|]; auto. }
  assert (HM : zlen M <= 64).
  { transitivity (zlen L); [|exact HL]. rewrite <- (zlen_incl (map fst M) L); [unfold zlen; rewrite map_length; lia|apply (linv_keys m); exact H|exact I1]. }
  destruct (lstep hash rounds m ys o) as [[m1 y]|].
  - destruct G as (M1 & G1 & G2 & G3). apply (IH m1 M1); auto; [apply (lspec_hist M ys o); auto| |tauto].
    intros x Hx. apply G3 in Hx. apply in_app_iff in Hx. destruct Hx as [Hx|Hx]; [exact (proj1 I3 x Hx)|exact (I1 x Hx)].
  - exfalso. destruct (G Hr HM) as (s & -> & G1 & G2).
    assert (W2 : weight (s :: map fst M) <= weight L).
    { apply weight_incl.
      - constructor; [|apply (linv_keys m); exact H]. intros Hi. apply in_map_iff in Hi. destruct Hi as ((s' & l) & E & Hi).
        cbn [fst] in E. subst s'. apply (proj1 (lookup_none bytes_eqb bok M s) G1 l Hi).
      - intros x [<-|Hx]; [|exact (I1 x Hx)]. apply (proj1 I3). left. reflexivity. }
    cbn [weight fold_right] in W2. fold (weight (map fst M)) in W2. pose proof (L_count _ _ H). lia.
Qed.

Theorem labels_large rounds os ys : Forall (fun o => zlen (op_string o) < 2 ^ 32) os ->
  labels_run hash rounds os = Some ys -> lspec_run [] [] os ys.
Proof.
  intros Ho. unfold labels_run. destruct linv_new as (m & -> & H).
  destruct (lrun hash rounds m [] os) as [[m' zs]|] eqn:E; [|discriminate]. cbn [option_map snd]. intros X. injection X as <-.
  apply (lrun_ok rounds os m [] [] m' zs H); auto. intros j. left. unfold answered. destruct j; reflexivity.
Qed.

Theorem labels_small rounds os : (2 <= rounds)%nat -> Forall (fun o => zlen (op_string o) < 2 ^ 32) os ->
  zlen (interned os) <= 64 -> zlen (concat (interned os)) <= 2 ^ 30 - 400 ->
  exists ys, labels_run hash rounds os = Some ys /\ lspec_run [] [] os ys.
Proof.
  intros Hr Ho HL HW. assert (E : exists ys, labels_run hash rounds os = Some ys).
  { unfold labels_run. destruct linv_new as (m & -> & H).
    destruct (lrun_total rounds (interned os) os Hr HL HW m [] [] H) as (m' & zs & ->); auto.
    - intros j. left. unfold answered. destruct j; reflexivity.
    - intros x [].
    - intros x Hx. apply nodup_In. exact Hx.
    - exists zs. reflexivity. }
  destruct E as (ys & E). exists ys. split; [exact E|]. apply (labels_large rounds); auto.
Qed.
End Labels.

(* ---- consequences for a history ---- *)
Lemma lspec_run_length M ys os zs : lspec_run M ys os zs -> exists ws, zs = ys ++ ws /\ length ws = length os.
Proof.
  induction 1 as [|M ys o y M' os zs S H (ws & E & L)]; [exists []; rewrite app_nil_r; auto|].
  exists (y :: ws). rewrite E, <- app_assoc. cbn [length app]. auto.
Qed.

Definition tab_ok (pre : list lop) (ys : list lout) (M : tbl) : Prop :=
  length ys = length pre /\ NoDup (map fst M) /\ NoDup (map snd M) /\ ~ In 0 (map snd M) /\
  (forall s l, In (s, l) M <-> exists i, nth_error pre i = Some (Intern s) /\ nth_error ys i = Some (Lab l)).

Lemma nth_snoc {A} (l : list A) x i y : nth_error (l ++ [x]) i = Some y <-> nth_error l i = Some y \/ (i = length l /\ x = y).
Proof.
  destruct (Nat.lt_trichotomy i (length l)) as [H|[H|H]].
  - rewrite nth_error_app1 by lia. split; [auto|]. intros [?|[? ?]]; [auto|lia].
  - subst. rewrite nth_error_app2, Nat.sub_diag by lia. cbn [nth_error]. rewrite (proj2 (nth_error_None l (length l)) (le_n _)).
    split; [intros E; injection E as ->; auto|]. intros [?|[_ ->]]; [discriminate|reflexivity].
  - rewrite !(proj2 (nth_error_None _ _)) by (rewrite ?app_length; cbn [length]; lia). split; [discriminate|].
    intros [?|[? ?]]; [discriminate|lia].
Qed.

Lemma fst_inj (M : tbl) s l l' : NoDup (map fst M) -> In (s, l) M -> In (s, l') M -> l = l'.
Proof.
  induction M as [|[s0 l0] M IH]; cbn [map fst]; intros N H1 H2; [destruct H1|]. inversion N as [|? ? N1 N2]; subst.
  destruct H1 as [H1|H1], H2 as [H2|H2]; try congruence.
  - injection H1 as -> ->. destruct N1. apply (in_map fst) in H2. exact H2.
  - injection H2 as -> ->. destruct N1. apply (in_map fst) in H1. exact H1.
  - auto.
Qed.
Lemma snd_inj (M : tbl) s s' l : NoDup (map snd M) -> In (s, l) M -> In (s', l) M -> s = s'.
Proof.
  induction M as [|[s0 l0] M IH]; cbn [map snd]; intros N H1 H2; [destruct H1|]. inversion N as [|? ? N1 N2]; subst.
  destruct H1 as [H1|H1], H2 as [H2|H2]; try congruence.
  - injection H1 as -> ->. destruct N1. apply (in_map snd) in H2. exact H2.
  - injection H2 as -> ->. destruct N1. apply (in_map snd) in H1. exact H1.
  - auto.
Qed.

Lemma tab_step pre ys M o y M' : tab_ok pre ys M -> lspec M ys o y M' -> tab_ok (pre ++ [o]) (ys ++ [y]) M'.
Proof.
  intros (T1 & T2 & T3 & T4 & T5) S.
  assert (L : length (ys ++ [y]) = length (pre ++ [o])) by (rewrite !app_length; cbn [length]; lia).
  assert (Same : (forall s l, o = Intern s -> y = Lab l -> In (s, l) M) -> tab_ok (pre ++ [o]) (ys ++ [y]) M).
  { intros Hx. repeat (split; [assumption|]). intros s l. rewrite T5. split.
    - intros (i & A & B). exists i. rewrite !nth_snoc. auto.
    - intros (i & A & B). apply nth_snoc in A. apply nth_snoc in B. destruct A as [A|[A A']], B as [B|[B B']].
      + eauto.
      + apply nth_lt in A. lia.
      + apply nth_lt in B. lia.
      + apply T5. apply Hx; assumption. }
  destruct S; try (apply Same; congruence).
  split; [exact L|]. cbn [map fst snd]. split; [constructor; [|exact T2]|].
    { intros Hi. apply in_map_iff in Hi. destruct Hi as ((s' & l') & E & Hi). cbn [fst] in E. subst. apply H. exists l'. exact Hi. }
    split; [constructor; assumption|]. split; [intros [E|E]; [lia|contradiction]|].
    intros s' l'. cbn [In]. rewrite T5. split.
    - intros [E|(i & A & B)].
      + injection E as -> ->. exists (length pre). rewrite !nth_snoc. split; right; auto.
      + exists i. rewrite !nth_snoc. auto.
    - intros (i & A & B). apply nth_snoc in A. apply nth_snoc in B. destruct A as [A|[A A']], B as [B|[B B']].
      + right. eauto.
      + apply nth_lt in A. lia.
      + apply nth_lt in B. lia.
      + left. congruence.
Qed.

Lemma hist_tab os : forall pre M ys zs, tab_ok pre ys M -> history pre ys -> lspec_run M ys os zs -> history (pre ++ os) zs.
Proof.
  induction os as [|o os IH]; intros pre M ys zs T H R; inversion R; subst.
  - rewrite app_nil_r. exact H.
  - replace (pre ++ o :: os) with ((pre ++ [o]) ++ os) by (rewrite <- app_assoc; reflexivity).
    match goal with S : lspec M ys o y m' |- _ => rename S into S1 end.
    pose proof (tab_step _ _ _ _ _ _ T S1) as T'. apply (IH _ m' (ys ++ [y])); auto. clear IH R.
    pose proof T as (T1 & T2 & T3 & T4 & T5). pose proof T' as (U1 & U2 & U3 & U4 & U5).
    assert (Key : forall i a l, nth_error (pre ++ [o]) i = Some (Intern a) -> nth_error (ys ++ [y]) i = Some (Lab l) -> In (a, l) m')
      by (intros; apply U5; eauto).
    split.
    + exact U1.
    + intros i a E. apply nth_snoc in E. destruct E as [E|[-> E]].
      * destruct (h_intern _ _ H i a E) as (l & A & B). exists l. rewrite nth_snoc. auto.
      * subst o. assert (E : exists l, y = Lab l) by (inversion S1; eauto). destruct E as (l & ->). exists l.
        split; [apply nth_snoc; right; auto|]. intros ->. apply U4. apply in_map_iff. exists (a, 0). split; [reflexivity|].
        apply (Key (length pre)); apply nth_snoc; right; auto.
    + intros i j a b l l' A B A' B'. pose proof (Key _ _ _ A A') as I1. pose proof (Key _ _ _ B B') as I2. split.
      * intros <-. exact (snd_inj _ _ _ _ U3 I1 I2).
      * intros <-. exact (fst_inj _ _ _ _ U2 I1 I2).
    + intros j a E. apply nth_snoc in E. destruct E as [E|[-> E]].
      * pose proof (nth_lt _ _ _ E) as Lj. destruct (h_query _ _ H j a E) as (l & A & [(B & C)|(i & B & C & D)]); exists l; rewrite nth_snoc; (split; [auto|]).
        -- left. split; [exact B|]. intros i Hi F. apply nth_snoc in F. destruct F as [F|[F _]]; [exact (C i Hi F)|lia].
        -- right. exists i. rewrite !nth_snoc. auto.
      * subst o. inversion S1; subst.
        -- exists l. split; [apply nth_snoc; right; auto|]. right. match goal with X : In (a, l) m' |- _ => apply T5 in X; destruct X as (i & A & B) end.
           exists i. pose proof (nth_lt _ _ _ A). rewrite !nth_snoc. auto.
        -- exists 0. split; [apply nth_snoc; right; auto|]. left. split; [reflexivity|]. intros i Hi F. apply nth_snoc in F.
           destruct F as [F|[F _]]; [|lia]. match goal with X : ~ known m' a |- _ => apply X end.
           destruct (h_intern _ _ H i a F) as (l & A & _). exists l. apply T5. eauto.
    + intros i j a A B Hij. apply nth_snoc in B. destruct B as [B|[-> B]].
      * pose proof (nth_lt _ _ _ B) as Lj. apply nth_snoc. left. apply nth_snoc in A. destruct A as [A|[A _]]; [|lia]. exact (h_view _ _ H i j a A B Hij).
      * subst o. apply nth_snoc in A. destruct A as [A|[A _]]; [|lia].
        destruct (h_intern _ _ H i a A) as (l & A1 & A2).
        assert (An : answered ys i = l) by (unfold answered; rewrite A1; reflexivity).
        apply nth_snoc. right. split; [lia|]. inversion S1; subst; [|congruence]. f_equal.
        rename H1 into X. apply (snd_inj m' s a (answered ys i)); [exact T3|exact X|]. apply T5. eauto.
Qed.

Theorem spec_history os ys : lspec_run [] [] os ys -> history os ys.
Proof.
  intros R. apply (hist_tab os [] [] [] ys); auto.
  - split; [reflexivity|]. split; [constructor|]. split; [constructor|]. split; [intros []|].
    intros s l. split; [intros []|]. intros (i & A & _). destruct i; discriminate.
  - split; [reflexivity| | | |]; intros; match goal with X : nth_error [] ?i = Some _ |- _ => destruct i; discriminate end.
Qed.
