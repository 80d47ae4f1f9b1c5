From Verif Require Import PylonNodeModel PylonNodeSpec StringViewProofs LabelProofs HashMapSpec HashMapSim HashMapProofs.
From Coq Require Import ZifyBool ZifyNat.

Section Nodes.
Context {A : Type} (hash : list Z -> Z) (Hhash : forall s, 0 <= hash s < 2 ^ 32).
Notation items_t := (list (list Z * A)).
Notation hm := (@hmap (list Z) bool).
Notation sim' := (sim hash (V := bool)).

Definition RN (L : items_t) (x : nkey * unit) (y : list Z * bool) : Prop :=
  zlen (fst y) < 2 ^ 32 /\
  match fst x with
  | Idx i => snd y = true /\ 0 <= i /\ nth_error (map fst L) (Z.to_nat i) = Some (fst y)
  | Unset s => snd y = false /\ fst y = s
  end.
Definition tab (L : items_t) : list (list Z * bool) := map (fun x => (fst x, true)) L.

Record ninv (small : bool) (o : object A) : Prop := {
  N_len : Forall (fun x => zlen (fst x) < 2 ^ 32) (oitems o);
  N_nodup : NoDup (map fst (oitems o));
  N_map : exists h, Rm (RN (oitems o)) (index o) h /\ sim' h (tab (oitems o)) /\ clob h = false /\ (small = true -> zlen (cells h) <= 128) }.

Lemma bok a b : bytes_eqb a b = true <-> a = b.
Proof. apply bytes_eqb_eq. Qed.

Lemma RN_match L k x y : zlen k < 2 ^ 32 -> RN L x y -> key_match L (fst x) (Unset k) = bytes_eqb (fst y) k.
Proof.
  intros Hk (H1 & H2). destruct (fst x) as [i|s]; cbn [key_match].
  - destruct H2 as (_ & _ & H2). rewrite nth_error_map in H2. destruct (nth_error L (Z.to_nat i)) as [[k' v]|]; [|discriminate].
    cbn in H2. injection H2 as ->. apply cmp_eq; assumption.
  - destruct H2 as (_ & <-). apply cmp_eq; assumption.
Qed.
Lemma RN_keys L L' x y : (forall i k, nth_error (map fst L) i = Some k -> nth_error (map fst L') i = Some k) -> RN L x y -> RN L' x y.
Proof.
  intros H (H1 & H2). split; [exact H1|]. destruct (fst x); [|exact H2]. destruct H2 as (A1 & A2 & A3). auto.
Qed.

Lemma tab_keys L : map fst (tab L) = map fst L.
Proof. unfold tab. rewrite map_map. reflexivity. Qed.
Lemma tab_in L k b : In (k, b) (tab L) <-> b = true /\ In k (map fst L).
Proof.
  unfold tab. rewrite !in_map_iff. split.
  - intros (x & E & H). injection E as <- <-. eauto.
  - intros (-> & x & <- & H). eauto.
Qed.
Lemma tab_len L : zlen (tab L) = zlen L.
Proof. unfold zlen, tab. rewrite map_length. reflexivity. Qed.
Lemma sim_perm (h : hm) s s' : sim' h s -> Permutation s s' -> sim' h s'.
Proof.
  intros (S1 & S2 & S3) P. split; [exact S1|]. split; [rewrite S2; exact P|].
  apply (Permutation_NoDup (l := map fst s)); [apply Permutation_map; exact P|exact S3].
Qed.

Lemma ninv_new : exists o, new_object = Some o /\ ninv true o /\ oitems o = [].
Proof.
  pose proof (create_simul (K1 := nkey) (V1 := unit) (K2 := list Z) (V2 := bool) (RN []) 8) as C.
  destruct (create_sim (V := bool) hash 3 ltac:(lia)) as (h & H1 & H2 & H3 & H4).
  change (2 ^ 3) with 8 in *. rewrite H1 in C. unfold new_object.
  destruct (create 8) as [m|] eqn:E; [|contradiction]. exists (mko m []). split; [reflexivity|]. split; [|reflexivity].
  split; cbn [oitems index map]; [constructor|constructor|]. exists h. split; [exact C|]. split; [exact H2|]. split; [exact H3|]. lia.
Qed.

(** Cell by cell. *)
Lemma Forall2_cells (P : @cell nkey unit -> @cell (list Z) bool -> Prop) L t t' :
  Rt (RN L) t t' -> (forall c c', In c' t' -> Rc (RN L) c c' -> P c c') -> Forall2 P t t'.
Proof. intros H. induction H as [|c c' t t' Hc H IH]; intros G; constructor; [apply G; [left; reflexivity|exact Hc]|]. apply IH. intros; apply G; [right|]; assumption. Qed.

Lemma indices b o : ninv b o -> indices_ok o = true.
Proof.
  intros H. destruct (N_map _ _ H) as (h & (R0 & _) & (S0 & S1 & S2) & _).
  destruct S0 as (C & SI & _). pose proof (I_n _ _ _ SI) as Hn.
  pose proof (Forall2_cells (fun c _ => match it c with Some (k, _) => in_range (zlen (oitems o)) k | None => true end = true) _ _ _ R0) as G.
  assert (G' : Forall2 (fun c _ => match it c with Some (k, _) => in_range (zlen (oitems o)) k | None => true end = true) (cells (index o)) (cells h)).
  { apply G. intros c c' Hc (_ & _ & _ & Hi). destruct (it c) as [[k u]|] eqn:E1; [|reflexivity].
    destruct (it c') as [[k' v']|] eqn:E2; [|contradiction]. cbn [Ro] in Hi.
    assert (Hin : In (k', v') (tab (oitems o))).
    { rewrite <- S1. apply in_items; [exact Hn|]. destruct (in_getc _ _ Hn Hc) as (p & Ep). exists p. rewrite Ep. exact E2. }
    apply tab_in in Hin. destruct Hin as (-> & Hin). destruct Hi as (_ & Hi). cbn [fst snd] in Hi.
    destruct k as [i|s]; [|destruct Hi; discriminate]. destruct Hi as (_ & H0 & Hi). apply nth_lt in Hi. rewrite map_length in Hi.
    cbn [in_range]. unfold zlen. lia. }
  unfold indices_ok. clear G. apply forallb_forall. intros c Hc. clear - G' Hc.
  induction G' as [|x y t t' E F IH]; [destruct Hc|]. destruct Hc as [<-|Hc]; [exact E|exact (IH Hc)].
Qed.

Lemma position_ok b o (h1 : @hmap nkey unit) (h2 : hm) idx k v : ninv b o -> Rm (RN (oitems o)) h1 h2 ->
  it (getc (cells h2) idx) = Some (k, v) -> In (k, v) (tab (oitems o)) ->
  exists i x, position h1 idx = Some i /\ nth_error (oitems o) i = Some (k, x).
Proof.
  intros H (R0 & _) E Hin. pose proof (item_simul _ _ _ idx R0) as G. unfold position, item in *. rewrite E in G.
  destruct (it (getc (cells h1) idx)) as [[x []]|]; [|contradiction]. apply tab_in in Hin. destruct Hin as (-> & _).
  destruct G as (_ & G). cbn [fst snd] in G. destruct x as [i|s]; [|destruct G; discriminate]. destruct G as (_ & _ & G).
  rewrite nth_error_map in G. destruct (nth_error (oitems o) (Z.to_nat i)) as [[k' x]|] eqn:En; [|discriminate].
  cbn in G. injection G as ->. eauto.
Qed.

Lemma find_in b o h k : ninv b o -> Rm (RN (oitems o)) (index o) h -> sim' h (tab (oitems o)) -> zlen k < 2 ^ 32 ->
  let f := insertOrFind (key_match (oitems o)) (nkey_hash hash) tt (cells (index o)) (Unset k) false in
  (exists p prev i x C, f = Found p prev /\ position (index o) p = Some i /\ nth_error (oitems o) i = Some (k, x) /\
     inv hash (cells h) C /\ at_cell (cells h) C (hash k) p prev /\ it (getc (cells h) p) = Some (k, true)) \/
  (f = NotFound /\ ~ PylonNodeSpec.has (oitems o) k).
Proof.
  intros H R0 S0 Hk f. pose proof S0 as ((C & SI & SP) & S1 & S2).
  pose proof (iof_sim (key_match (oitems o)) (nkey_hash hash) tt bytes_eqb hash false (RN (oitems o)) (Unset k) k eq_refl
                (fun x y => RN_match (oitems o) k x y Hk) (conj Hk (conj eq_refl eq_refl)) _ _ false (proj1 R0)) as G. fold f in G.
  destruct (find_ok bytes_eqb hash false bok Hhash (cells h) C k SI) as [(p & prev & v & F1 & F2 & F3)|(F1 & F2)]; rewrite F1 in G;
    destruct f as [p' prev'| | | |]; cbn [Rf] in G; try contradiction.
  - destruct G as (-> & ->). left. assert (Hin : In (k, v) (tab (oitems o))).
    { rewrite <- S1. apply in_items; [exact (I_n _ _ _ SI)|eauto]. }
    destruct (position_ok b o (index o) h p k v H R0 F2 Hin) as (i & x & P1 & P2). apply tab_in in Hin. destruct Hin as (-> & _).
    exists p, prev, i, x, C. auto 10.
  - right. split; [reflexivity|]. intros (x & Hx). apply (F2 true). rewrite S1. apply tab_in. split; [reflexivity|].
    apply in_map_iff. exists (k, x). auto.
Qed.

Lemma get_ok b o k : ninv b o -> zlen k < 2 ^ 32 -> exists r, get hash o k = Some r /\ nspec (oitems o) (Get k) (Got r) (oitems o).
Proof.
  intros H Hk. unfold get. rewrite (indices b o H). cbn [negb]. destruct (N_map _ _ H) as (h & R0 & S0 & _).
  destruct (find_in b o h k H R0 S0 Hk) as [(p & prev & i & x & C & F & P1 & P2 & _)|(F & Hn)]; rewrite F.
  - rewrite P1, P2. exists (Some x). split; [reflexivity|]. constructor. apply nth_error_In in P2. exact P2.
  - exists None. split; [reflexivity|]. constructor. exact Hn.
Qed.

Lemma has_lookup L k : lookup bytes_eqb (tab L) k = None -> ~ PylonNodeSpec.has L k.
Proof.
  intros E (v & Hv). apply (proj1 (lookup_none bytes_eqb bok (tab L) k) E true). apply tab_in. split; [reflexivity|].
  apply in_map_iff. exists (k, v). auto.
Qed.

Lemma set_ok b rounds o k v : ninv b o -> zlen k < 2 ^ 32 -> zlen (oitems o) < 2 ^ 30 -> (b = true -> zlen (oitems o) <= 64) ->
  match set hash rounds o k v with
  | None => (2 <= rounds)%nat -> b = true -> False
  | Some o' => nspec (oitems o) (Set_ k v) Done (oitems o') /\ ninv b o' /\ clob (index o') = false
  end.
Proof.
  intros H Hk Hz Hb. unfold set. rewrite (indices b o H). cbn [negb]. destruct (N_map _ _ H) as (h & R0 & S0 & C0 & B0).
  pose proof (insert_simul (key_match (oitems o)) (nkey_hash hash) tt bytes_eqb hash false (RN (oitems o)) (Unset k) k eq_refl
                (fun x y => RN_match (oitems o) k x y Hk) (conj Hk (conj eq_refl eq_refl)) rounds _ _ R0) as G.
  destruct (HashMapModel.insert (key_match (oitems o)) (nkey_hash hash) tt rounds (index o) (Unset k)) as [[[h1 i1] b1]|].
  2:{ destruct (HashMapModel.insert bytes_eqb hash false rounds h k) eqn:E2; [contradiction|]. intros Hr Hs.
      destruct S0 as (S1 & S2 & _).
      apply (insert_total bytes_eqb hash false bok Hhash rounds h k) in E2; auto.
      destruct S1 as (C & _ & S1). rewrite S1, (zlen_perm _ _ S2), tab_len. auto. }
  destruct (HashMapModel.insert bytes_eqb hash false rounds h k) as [[[h2 i2] b2]|] eqn:E2; [|contradiction].
  destruct G as (R1 & -> & ->).
  assert (Hz' : zlen (tab (oitems o)) < 2 ^ 30) by (rewrite tab_len; exact Hz).
  destruct (insert_sim bytes_eqb hash false bok Hhash rounds h _ k h2 i2 b2 S0 Hz' E2) as (K1 & K2 & K3 & K4).
  destruct K3 as [(-> & K5 & w & K6 & K7)|(-> & K5 & K6 & K7)].
  - assert (Hin : In (k, w) (tab (oitems o))) by (apply (lookup_in bytes_eqb bok); exact K6).
    destruct (position_ok b o h1 h2 i2 k w H R1 K7 Hin) as (i & x & P1 & P2). rewrite P1, P2.
    assert (Li : (i < length (oitems o))%nat) by (apply nth_lt in P2; exact P2).
    pose proof (nth_split_eq _ _ _ P2) as Es.
    assert (Eu : upd (oitems o) i (k, v) = firstn i (oitems o) ++ (k, v) :: skipn (S i) (oitems o)) by (apply upd_split; exact Li).
    assert (Ek : map fst (upd (oitems o) i (k, v)) = map fst (oitems o)).
    { rewrite Eu. rewrite Es at 3. rewrite !map_app. reflexivity. }
    assert (Et : tab (upd (oitems o) i (k, v)) = tab (oitems o)).
    { rewrite Eu. rewrite Es at 3. unfold tab. rewrite !map_app. reflexivity. }
    split; [|split].
    + cbn [oitems]. rewrite Eu. rewrite Es at 1. constructor.
    + split; cbn [oitems index].
      * rewrite Eu. pose proof (N_len _ _ H) as HL. rewrite Es in HL. apply Forall_app in HL. destruct HL as (L1 & L2).
        apply Forall_app. split; [exact L1|]. inversion L2; subst. constructor; [exact Hk|assumption].
      * rewrite Ek. exact (N_nodup _ _ H).
      * exists h2. split; [|split; [|split]].
        -- destruct R1 as (Ra & Rb & Rc'). split; [|auto]. apply (Rt_mono (RN (oitems o))); [|exact Ra].
           intros a c. apply RN_keys. rewrite Ek. auto.
        -- rewrite Et. split; [exact K1|]. split; [exact K5|]. exact (proj2 (proj2 S0)).
        -- congruence.
        -- intros Hs. apply K4; [auto|]. rewrite tab_len. auto.
    + cbn [index]. destruct R1 as (_ & _ & ->). congruence.
  - assert (ST : step bytes_eqb hash false rounds h (Assign k true) =
        Some (mkm (assign (cells h2) i2 (k, true)) (HashMapModel.pop h2) (clob h2), Item false true)).
    { cbn [step]. rewrite E2. unfold item. rewrite K7. reflexivity. }
    destruct (step_ok bytes_eqb hash false bok Hhash rounds h _ _ _ _ S0 Hz' C0 ST ltac:(cbn [clob]; congruence)) as (_ & T2 & T3).
    cbn [after] in T2. unfold store in T2. rewrite remove_absent in T2; [|exact bok|apply (lookup_none bytes_eqb bok); exact K5].
    pose proof (has_lookup _ _ K5) as Hno. destruct R1 as (Ra & Rb & Rc').
    split; [|split]; cbn [oitems index clob].
    + constructor. exact Hno.
    + split; cbn [oitems index].
      * apply Forall_app. split; [exact (N_len _ _ H)|]. constructor; [exact Hk|constructor].
      * rewrite map_app. apply (Permutation_NoDup (l := k :: map fst (oitems o))); [apply Permutation_cons_append|].
        constructor; [|exact (N_nodup _ _ H)]. intros Hi. apply in_map_iff in Hi. destruct Hi as ([k' x] & E & Hi). cbn in E. subst k'.
        apply Hno. exists x. exact Hi.
      * exists (mkm (assign (cells h2) i2 (k, true)) (HashMapModel.pop h2) (clob h2)). split; [|split; [|split]].
        -- split; [|split; [exact Rb|exact Rc']]. cbn [cells]. apply assign_simul.
           ++ apply (Rt_mono (RN (oitems o))); [|exact Ra]. intros a c. apply RN_keys. intros j key Hj. rewrite map_app.
              rewrite nth_error_app1 by (apply nth_lt in Hj; exact Hj). exact Hj.
           ++ split; [exact Hk|]. cbn [fst snd]. split; [reflexivity|]. split; [unfold zlen; lia|].
              rewrite map_app. unfold zlen. rewrite Nat2Z.id. rewrite nth_error_app2 by (rewrite map_length; lia).
              rewrite map_length, Nat.sub_diag. reflexivity.
        -- apply (sim_perm _ _ _ T2). unfold tab. rewrite map_app. apply Permutation_cons_append.
        -- cbn [clob]. congruence.
        -- intros Hs. apply T3; [auto|]. rewrite tab_len. auto.
    + congruence.
Qed.

Lemma skip_keys (L : items_t) i j : nth_error (map fst L) j <> None -> i <> j ->
  nth_error (map fst (firstn i L ++ skipn (S i) L)) (if (i <? j)%nat then (j - 1)%nat else j) = nth_error (map fst L) j.
Proof.
  revert i j. induction L as [|x L IH]; intros i j Hj Hne; [destruct j; cbn in Hj; congruence|].
  destruct i as [|i]; cbn [firstn skipn app].
  - destruct j as [|j]; [congruence|]. replace (0 <? S j)%nat with true by (symmetry; apply Nat.ltb_lt; lia).
    replace (S j - 1)%nat with j by lia. reflexivity.
  - destruct j as [|j]; [reflexivity|]. cbn [map nth_error] in Hj. specialize (IH i j Hj ltac:(lia)).
    change (S i <? S j)%nat with (i <? j)%nat. cbn [map nth_error]. rewrite <- IH.
    destruct (Nat.ltb_spec i j) as [Hl|Hl]; [|reflexivity].
    replace (S j - 1)%nat with (S (j - 1)) by lia. reflexivity.
Qed.

Lemma remove_ok b o k : ninv b o -> zlen k < 2 ^ 32 -> zlen (oitems o) < 2 ^ 30 ->
  match PylonNodeModel.remove hash o k with
  | None => b = true -> False
  | Some (o', r) => clob (index o') = false -> nspec (oitems o) (Remove k) (Removed r) (oitems o') /\ ninv b o'
  end /\ (b = true -> match PylonNodeModel.remove hash o k with Some (o', _) => clob (index o') = false | None => True end).
Proof.
  intros H Hk Hz. unfold PylonNodeModel.remove. rewrite (indices b o H). cbn [negb]. destruct (N_map _ _ H) as (h & R0 & S0 & C0 & B0).
  destruct (find_in b o h k H R0 S0 Hk) as [(p & prev & i & x & C & F & P1 & P2 & SI & AT & IT)|(F & Hn)]; rewrite F.
  2:{ split; [|intros _; destruct R0 as (_ & _ & ->); exact C0]. intros _. split; [constructor; exact Hn|exact H]. }
  rewrite P1, P2. destruct R0 as (Ra & Rb & Rc').
  pose proof (erase_simul (RN (oitems o)) _ _ p prev Ra) as ES. pose proof (erase_ok bytes_eqb hash bok Hhash _ C k true p prev SI AT IT) as EO.
  destruct (erase_cell (cells (index o)) p prev) as [[t1 c1]|]; destruct (erase_cell (cells h) p prev) as [[t2 c2]|] eqn:E2; try contradiction.
  2:{ split; [|auto]. intros Hs. specialize (B0 Hs). lia. }
  destruct ES as (Rt1 & ->). rewrite Rb.
  assert (Hpop : HashMapModel.pop h = zlen (oitems o)).
  { destruct S0 as ((C' & _ & S0) & S1 & _). rewrite S0, (zlen_perm _ _ S1), tab_len. reflexivity. }
  assert (Li : (i < length (oitems o))%nat) by (apply nth_lt in P2; exact P2).
  assert (Hpos : (HashMapModel.pop h <=? 0) = false) by (rewrite Hpop; unfold zlen; lia). rewrite Hpos.
  cbn [index clob]. rewrite Rc', C0. cbn [orb]. destruct EO as (EO1 & EO2).
  split; [|intros Hs; apply EO2; auto]. intros Hc. subst c2.
  pose proof (nth_split_eq _ _ _ P2) as Es. set (L' := firstn i (oitems o) ++ skipn (S i) (oitems o)) in *.
  split. { cbn [oitems]. rewrite Es at 1. unfold L'. constructor. }
  assert (ST : step bytes_eqb hash false 0 h (Erase k) = Some (mkm t2 (HashMapModel.pop h - 1) (clob h || false), Erased true)).
  { cbn [step]. pose proof (find_ok bytes_eqb hash false bok Hhash (cells h) C k SI) as FO.
    pose proof (iof_sim (key_match (oitems o)) (nkey_hash hash) tt bytes_eqb hash false (RN (oitems o)) (Unset k) k eq_refl
                (fun x y => RN_match (oitems o) k x y Hk) (conj Hk (conj eq_refl eq_refl)) _ _ false Ra) as G. rewrite F in G.
    destruct (insertOrFind bytes_eqb hash false (cells h) k false); cbn [Rf] in G; try contradiction. destruct G as (<- & <-).
    rewrite E2, Hpos. reflexivity. }
  assert (Hz' : zlen (tab (oitems o)) < 2 ^ 30) by (rewrite tab_len; exact Hz).
  destruct (step_ok bytes_eqb hash false bok Hhash 0 h _ _ _ _ S0 Hz' C0 ST ltac:(cbn [clob]; rewrite C0; reflexivity)) as (_ & T2 & T3).
  cbn [after] in T2. rewrite C0 in T2. cbn [orb] in T2.
  pose proof (N_nodup _ _ H) as ND. rewrite Es in ND. rewrite map_app in ND. cbn [map fst] in ND.
  assert (Er : HashMapSpec.remove bytes_eqb (tab (oitems o)) k = tab L').
  { rewrite Es. unfold L', tab. rewrite !map_app. cbn [map fst]. unfold HashMapSpec.remove. rewrite filter_app. cbn [filter fst].
    replace (bytes_eqb k k) with true by (symmetry; apply bok; reflexivity). cbn [negb]. f_equal.
    - apply (remove_absent bytes_eqb bok). intros v Hv. apply in_map_iff in Hv. destruct Hv as (y & E & Hy). injection E as E _.
      apply (NoDup_remove_2 _ _ _ ND). apply in_or_app. left. rewrite <- E. apply in_map. exact Hy.
    - apply (remove_absent bytes_eqb bok). intros v Hv. apply in_map_iff in Hv. destruct Hv as (y & E & Hy). injection E as E _.
      apply (NoDup_remove_2 _ _ _ ND). apply in_or_app. right. rewrite <- E. apply in_map. exact Hy. }
  rewrite Er in T2. pose proof T2 as ((C2 & I2 & _) & T2P & _). cbn [cells] in I2, T2P. pose proof (I_n _ _ _ I2) as Hn2.
  assert (RA : Rt (RN L') (adjust (Z.of_nat i) t1) t2).
  { assert (G : Forall2 (fun c c' => Rc (RN L') (if nx c =? EmptySlot then c else
                mkc (nx c) (fs c) (hs c) (match it c with Some (k, u) => Some (lower (Z.of_nat i) k, u) | None => None end)) c') t1 t2).
    { apply (Forall2_cells _ (oitems o) _ _ Rt1). intros c c' Hc' (Q1 & Q2 & Q3 & Q4).
      destruct (in_getc _ _ Hn2 Hc') as (q & Eq). pose proof (I_it _ _ _ I2 q) as Q5. rewrite Eq in Q5. rewrite Q1.
      destruct (Z.eqb_spec (nx c') EmptySlot) as [E|E].
      - apply Q5 in E. rewrite E in *. destruct (it c) eqn:Ec; [contradiction|]. repeat split; auto. rewrite Ec, E. exact I.
      - repeat split; cbn [nx fs hs it]; auto. destruct (it c) as [[k1 u]|], (it c') as [[k2 w]|] eqn:Ec; cbn [Ro] in *; try contradiction; auto.
        destruct Q4 as (W1 & W2). cbn [fst snd] in *. split; [exact W1|]. cbn [fst snd].
        assert (Hin : In (k2, w) (tab L')) by (rewrite <- T2P; apply in_items; [exact Hn2|exists q; rewrite Eq; exact Ec]).
        apply tab_in in Hin. destruct Hin as (-> & Hin).
        destruct k1 as [j|s]; cbn [lower]; [|destruct W2; discriminate]. destruct W2 as (_ & W2 & W3). split; [reflexivity|].
        assert (Hij : i <> Z.to_nat j).
        { intros Eij. rewrite <- Eij in W3. rewrite nth_error_map, P2 in W3. cbn in W3. injection W3 as W3. subst k2.
          unfold L' in Hin. rewrite map_app in Hin. exact (NoDup_remove_2 _ _ _ ND Hin). }
        pose proof (skip_keys (oitems o) i (Z.to_nat j) ltac:(congruence) Hij) as SK. fold L' in SK. rewrite W3 in SK.
        destruct (Z.ltb_spec (Z.of_nat i) j) as [Hl|Hl].
        + replace (i <? Z.to_nat j)%nat with true in SK by (symmetry; apply Nat.ltb_lt; lia).
          split; [lia|]. replace (Z.to_nat (j - 1)) with (Z.to_nat j - 1)%nat by lia. exact SK.
        + replace (i <? Z.to_nat j)%nat with false in SK by (symmetry; apply Nat.ltb_ge; lia). auto. }
    unfold Rt, adjust. clear - G. induction G; cbn [map]; constructor; auto. }
  split; cbn [oitems index].
  - pose proof (N_len _ _ H) as HL. rewrite Es in HL. apply Forall_app in HL. destruct HL as (L1 & L2).
    apply Forall_app. split; [exact L1|]. inversion L2; subst. assumption.
  - unfold L'. rewrite map_app. exact (NoDup_remove_1 _ _ _ ND).
  - exists (mkm t2 (HashMapModel.pop h - 1) false). split; [|split; [exact T2|split; [reflexivity|]]].
    + split; [exact RA|]. split; [reflexivity|reflexivity].
    + cbn [cells]. destruct (EO1 eq_refl) as (_ & _ & ->). exact B0.
Qed.

(* ---- whole histories ---- *)
Lemma nstep_ok b rounds (o : object A) op : ninv b o -> zlen (op_key op) < 2 ^ 32 -> zlen (oitems o) < 2 ^ 30 -> (b = true -> zlen (oitems o) <= 64) ->
  match nstep hash rounds o op with
  | None => (2 <= rounds)%nat -> b = true -> False
  | Some (o', y) => (clob (index o') = false -> nspec (oitems o) op y (oitems o') /\ ninv b o') /\ (b = true -> clob (index o') = false)
  end.
Proof.
  intros H Hk Hz Hb. assert (C0 : clob (index o) = false).
  { destruct (N_map _ _ H) as (h & (_ & _ & ->) & _ & C0 & _). exact C0. }
  destruct op as [k|k v|k|]; cbn [nstep op_key] in *.
  - destruct (get_ok b o k H Hk) as (r & -> & S). cbn [option_map]. auto.
  - pose proof (set_ok b rounds o k v H Hk Hz Hb) as G. destruct (set hash rounds o k v) as [o'|]; cbn [option_map]; [|exact G]. tauto.
  - pose proof (remove_ok b o k H Hk Hz) as G. destruct (PylonNodeModel.remove hash o k) as [[o' r]|]; cbn [option_map fst snd]; [exact G|]. tauto.
  - split; [|auto]. intros _. split; [constructor|exact H].
Qed.

Lemma insert_clob {K V} (eqb : K -> K -> bool) (hs : K -> Z) (d : V) r : forall m k m1 idx b,
  HashMapModel.insert eqb hs d r m k = Some (m1, idx, b) -> clob m1 = clob m.
Proof.
  induction r as [|r IH]; intros m k m1 idx b; cbn [HashMapModel.insert]; [discriminate|].
  destruct (insertOrFind eqb hs d (cells m) k true); try discriminate.
  - intros Q. injection Q as <- _ _. reflexivity.
  - intros Q. injection Q as <- _ _. reflexivity.
  - unfold migrate. destruct (createTable _); [|discriminate]. destruct (migrate_cells _ _); [|discriminate].
    intros Q. rewrite (IH _ _ _ _ _ Q). reflexivity.
Qed.
Lemma nstep_clob rounds (o : object A) op o' y : nstep hash rounds o op = Some (o', y) -> clob (index o) = true -> clob (index o') = true.
Proof.
  intros E Hc. destruct op as [k|k v|k|]; cbn [nstep] in E.
  - destruct (get hash o k); [|discriminate]. injection E as <- _. exact Hc.
  - unfold set in E. destruct (negb (indices_ok o)); [discriminate|].
    destruct (HashMapModel.insert _ _ _ _ _ _) as [[[h i] b]|] eqn:E1; [|discriminate].
    apply insert_clob in E1. destruct b.
    + destruct (position h i) as [j|]; [|discriminate]. destruct (nth_error (oitems o) j) as [[? ?]|]; [|discriminate].
      injection E as <- _. cbn [index]. congruence.
    + injection E as <- _. cbn [index clob]. congruence.
  - unfold PylonNodeModel.remove in E. destruct (negb (indices_ok o)); [discriminate|].
    destruct (insertOrFind _ _ _ _ _ _); try discriminate.
    + destruct (position (index o) idx) as [j|]; [|discriminate]. destruct (erase_cell _ _ _) as [[t c]|]; [|discriminate].
      destruct (nth_error (oitems o) j) as [[? ?]|]; [|discriminate]. destruct (_ <=? 0); [discriminate|].
      injection E as <- _. cbn [fst index clob]. rewrite Hc. reflexivity.
    + injection E as <- _. exact Hc.
  - injection E as <- _. exact Hc.
Qed.
Lemma nrun_clob rounds ops : forall (o o' : object A) ys, nrun hash rounds o ops = Some (o', ys) -> clob (index o') = false -> clob (index o) = false.
Proof.
  induction ops as [|op ops IH]; intros o o' ys E Hc; cbn [nrun] in E; [injection E as <- _; exact Hc|].
  destruct (nstep hash rounds o op) as [[o1 y]|] eqn:E1; [|discriminate].
  destruct (nrun hash rounds o1 ops) as [[o2 ys2]|] eqn:E2; [|discriminate]. injection E as <- _.
  pose proof (IH _ _ _ E2 Hc) as H1. destruct (clob (index o)) eqn:Ec; [|reflexivity].
  rewrite (nstep_clob _ _ _ _ _ E1 Ec) in H1. discriminate.
Qed.

Lemma never_here n (l : items_t) os : never_more n l os -> zlen l <= n.
Proof. intros H. apply (H [] os []); [reflexivity|constructor]. Qed.
Lemma never_next n (l l' : items_t) o y os : never_more n l (o :: os) -> nspec l o y l' -> never_more n l' os.
Proof. intros H S before later ys l2 -> R. apply (H (o :: before) later (y :: ys)); [reflexivity|]. econstructor; eassumption. Qed.

Lemma nrun_partial rounds ops : forall b (o o' : object A) ys, ninv b o -> (b = true -> never_more 64 (oitems o) ops) -> keys_ok ops ->
  never_more (2 ^ 30 - 1) (oitems o) ops ->
  nrun hash rounds o ops = Some (o', ys) -> clob (index o') = false -> nspec_run (oitems o) ops ys (oitems o') /\ ninv b o'.
Proof.
  induction ops as [|op ops IH]; intros b o o' ys H Hb Ho HA E Hc; cbn [nrun] in E.
  - injection E as <- <-. split; [constructor|exact H].
  - apply Forall_cons_iff in Ho. destruct Ho as (Ho & Ho').
    destruct (nstep hash rounds o op) as [[o1 y]|] eqn:E1; [|discriminate].
    destruct (nrun hash rounds o1 ops) as [[o2 ys2]|] eqn:E2; [|discriminate]. injection E as <- <-.
    pose proof (nrun_clob _ _ _ _ _ E2 Hc) as Hc1. pose proof (never_here _ _ _ HA) as Hz.
    pose proof (nstep_ok b rounds o op H Ho ltac:(lia) (fun Q => never_here _ _ _ (Hb Q))) as G. rewrite E1 in G.
    destruct G as (G & _). destruct (G Hc1) as (G1 & G2).
    destruct (IH b o1 o2 ys2 G2 (fun Q => never_next _ _ _ _ _ _ (Hb Q) G1) Ho' (never_next _ _ _ _ _ _ HA G1) E2 Hc) as (G3 & G4).
    split; [|exact G4]. econstructor; eassumption.
Qed.
Lemma never_weaken n n' (l : items_t) os : n <= n' -> never_more n l os -> never_more n' l os.
Proof. intros H G before later ys l' E R. specialize (G before later ys l' E R). lia. Qed.
Lemma nrun_total rounds ops : (2 <= rounds)%nat -> forall o : object A, ninv true o -> never_more 64 (oitems o) ops -> keys_ok ops ->
  exists o' ys, nrun hash rounds o ops = Some (o', ys) /\ nspec_run (oitems o) ops ys (oitems o') /\ ninv true o'.
Proof.
  intros Hr. induction ops as [|op ops IH]; intros o H Hb Ho; cbn [nrun].
  - exists o, []. split; [reflexivity|]. split; [constructor|exact H].
  - apply Forall_cons_iff in Ho. destruct Ho as (Ho & Ho'). pose proof (never_here _ _ _ Hb) as Hz.
    pose proof (nstep_ok true rounds o op H Ho ltac:(lia) ltac:(auto)) as G.
    destruct (nstep hash rounds o op) as [[o1 y]|]; [|exfalso; auto].
    destruct G as (G & Gc). destruct (G (Gc eq_refl)) as (G1 & G2).
    destruct (IH o1 G2 (never_next _ _ _ _ _ _ Hb G1) Ho') as (o2 & ys & E & G3 & G4). rewrite E.
    exists o2, (y :: ys). split; [reflexivity|]. split; [|exact G4]. econstructor; eassumption.
Qed.

Theorem object_small rounds (ops : list (nop A)) : (2 <= rounds)%nat -> keys_ok ops -> never_more 64 [] ops ->
  exists o ys, object_run hash rounds ops = Some (o, ys) /\ nspec_run [] ops ys (oitems o) /\ ninv true o.
Proof.
  intros Hr Ho Hb. unfold object_run. destruct ninv_new as (o & -> & H & E).
  destruct (nrun_total rounds ops Hr o H) as (o' & ys & G); [rewrite E; exact Hb|exact Ho|]. rewrite E in G. eauto.
Qed.
Theorem object_large rounds (ops : list (nop A)) o ys : keys_ok ops -> never_more (2 ^ 30 - 1) [] ops ->
  object_run hash rounds ops = Some (o, ys) -> clob (index o) = false -> nspec_run [] ops ys (oitems o).
Proof.
  intros Ho Hb. unfold object_run. destruct ninv_new as (o0 & -> & H & E). intros R Hc.
  assert (H' : ninv false o0) by (destruct H as [A1 A2 (h & A3 & A4 & A5 & A6)]; split; auto; exists h; repeat (split; [assumption|]); discriminate).
  rewrite <- E. apply (nrun_partial rounds ops false o0 o ys); auto; [discriminate|]. rewrite E. exact Hb.
Qed.

(* ---- copies ---- *)
Lemma migrate_sim' (h h1 : hm) s : sim' h s -> zlen s <= 2 ^ 30 -> migrate h = Some h1 -> sim' h1 s.
Proof.
  intros ((C & HI & HP) & S2 & S3) Hz E. pose proof (migrate_ok hash Hhash h C HI HP) as G. rewrite E in G.
  assert (Hz' : HashMapModel.pop h <= 2 ^ 30) by (rewrite HP, (zlen_perm _ _ S2); exact Hz).
  destruct (G Hz') as (C' & G1 & _ & G2 & G3 & _). split; [|split; [rewrite G2; exact S2|exact S3]].
  exists C'. split; [exact G1|]. rewrite G3, HP. symmetry. apply zlen_perm. exact G2.
Qed.
Lemma cell_key (h : hm) s j k v : sim' h s -> it (getc (cells h) j) = Some (k, v) -> hs (getc (cells h) j) = hash k /\ In (k, v) s.
Proof.
  intros ((C & HI & HP) & S2 & S3) E. split; [exact (I_hs _ _ _ HI j k v E)|]. rewrite <- S2. apply in_items; [exact (I_n _ _ _ HI)|eauto].
Qed.

Lemma copy_step rounds (L P : items_t) k v Q h1 h2 : L = P ++ (k, v) :: Q -> NoDup (map hash (map fst L)) -> zlen L <= 64 -> zlen k < 2 ^ 32 ->
  (2 <= rounds)%nat -> Rm (RN L) h1 h2 -> sim' h2 (tab P) -> clob h2 = false -> zlen (cells h2) <= 128 ->
  exists h1' idx h2', HashMapModel.insert (fun _ _ => true) (nkey_hash hash) tt rounds h1 (Unset k) = Some (h1', idx, false) /\
    Rm (RN L) (mkm (assign (cells h1') idx (Idx (zlen P), tt)) (HashMapModel.pop h1') (clob h1')) h2' /\
    sim' h2' (tab (P ++ [(k, v)])) /\ clob h2' = false /\ zlen (cells h2') <= 128.
Proof.
  intros EL ND HL Hk Hr R0 S0 C0 B0.
  assert (LP : zlen P <= 64) by (rewrite EL in HL; unfold zlen in *; rewrite app_length in HL; lia).
  assert (Hno : forall k', In k' (map fst P) -> hash k' <> hash k).
  { intros k' Hk' E. rewrite EL, !map_app in ND. cbn [map fst] in ND. apply (NoDup_remove_2 _ _ _ ND). apply in_or_app. left.
    rewrite <- E. apply in_map. exact Hk'. }
  pose proof (insert_agree (fun _ _ => true) (nkey_hash hash) tt bytes_eqb hash false (RN L) (Unset k) k eq_refl
                (conj Hk (conj eq_refl eq_refl)) (fun m => sim' m (tab P))) as G.
  assert (HA : forall m m', sim' m' (tab P) -> Rm (RN L) m m' -> agree (fun _ _ : nkey => true) bytes_eqb hash (Unset k) k (cells m) (cells m')).
  { intros m m' S' R' j. pose proof (Rt_getc _ _ _ j (proj1 R')) as (_ & _ & Q3 & Q4). unfold matches. rewrite Q3.
    destruct (it (getc (cells m') j)) as [[k' w]|] eqn:E.
    - destruct (cell_key m' _ j k' w S' E) as (Eh & Hin). apply tab_in in Hin. rewrite Eh.
      replace (hash k' =? hash k) with false by (symmetry; apply Z.eqb_neq; apply Hno; tauto). reflexivity.
    - destruct (it (getc (cells m) j)); [contradiction|]. reflexivity. }
  specialize (G HA (fun m m1 H => migrate_sim' m m1 _ H ltac:(rewrite tab_len; lia)) rounds h1 h2 S0 R0).
  assert (Hz' : zlen (tab P) < 2 ^ 30) by (rewrite tab_len; lia).
  pose proof (insert_total bytes_eqb hash false bok Hhash rounds h2 k (proj1 S0) B0) as T.
  assert (Hpop : HashMapModel.pop h2 <= 64).
  { destruct S0 as ((C & _ & S0) & S1 & _). rewrite S0, (zlen_perm _ _ S1), tab_len. exact LP. }
  specialize (T Hpop Hr).
  destruct (HashMapModel.insert bytes_eqb hash false rounds h2 k) as [[[h2' i2] b2]|] eqn:E2; [clear T|congruence].
  destruct (HashMapModel.insert (fun _ _ => true) (nkey_hash hash) tt rounds h1 (Unset k)) as [[[h1' i1] b1]|]; [|contradiction].
  destruct G as (R1 & -> & ->).
  destruct (insert_sim bytes_eqb hash false bok Hhash rounds h2 _ k h2' i2 b2 S0 Hz' E2) as (K1 & K2 & K3 & K4).
  destruct K3 as [(-> & K5 & w & K6 & K7)|(-> & K5 & K6 & K7)].
  { exfalso. apply (lookup_in bytes_eqb bok) in K6. apply tab_in in K6. apply (Hno k); tauto. }
  exists h1', i2, (mkm (assign (cells h2') i2 (k, true)) (HashMapModel.pop h2') (clob h2')). split; [reflexivity|].
  assert (ST : step bytes_eqb hash false rounds h2 (Assign k true) =
        Some (mkm (assign (cells h2') i2 (k, true)) (HashMapModel.pop h2') (clob h2'), Item false true)).
  { cbn [step]. rewrite E2. unfold item. rewrite K7. reflexivity. }
  destruct (step_ok bytes_eqb hash false bok Hhash rounds h2 _ _ _ _ S0 Hz' C0 ST ltac:(cbn [clob]; congruence)) as (_ & T2 & T3).
  cbn [after] in T2. unfold store in T2. rewrite remove_absent in T2; [|exact bok|apply (lookup_none bytes_eqb bok); exact K5].
  destruct R1 as (Ra & Rb & Rc'). split; [|split; [|split]].
  - split; [|split; [exact Rb|exact Rc']]. cbn [cells]. apply assign_simul; [exact Ra|].
    split; [exact Hk|]. cbn [fst snd]. split; [reflexivity|]. split; [unfold zlen; lia|].
    rewrite EL, map_app. unfold zlen. rewrite Nat2Z.id. rewrite nth_error_app2 by (rewrite map_length; lia).
    rewrite map_length, Nat.sub_diag. reflexivity.
  - apply (sim_perm _ _ _ T2). unfold tab. rewrite map_app. apply Permutation_cons_append.
  - cbn [clob]. congruence.
  - apply T3; [exact B0|]. rewrite tab_len. exact LP.
Qed.

Lemma copy_items_ok rounds (L : items_t) : NoDup (map hash (map fst L)) -> zlen L <= 64 -> Forall (fun x => zlen (fst x) < 2 ^ 32) L ->
  (2 <= rounds)%nat -> forall Q P h1 h2, L = P ++ Q -> Rm (RN L) h1 h2 -> sim' h2 (tab P) -> clob h2 = false -> zlen (cells h2) <= 128 ->
  exists h1' h2', copy_items hash rounds h1 (zlen P) Q = Some h1' /\ Rm (RN L) h1' h2' /\ sim' h2' (tab L) /\ clob h2' = false /\ zlen (cells h2') <= 128.
Proof.
  intros ND HL HF Hr. induction Q as [|[k v] Q IH]; intros P h1 h2 EL R0 S0 C0 B0; cbn [copy_items].
  - exists h1, h2. rewrite app_nil_r in EL. subst P. auto.
  - assert (Hk : zlen k < 2 ^ 32).
    { rewrite EL in HF. apply Forall_app in HF. destruct HF as (_ & HF). inversion HF; subst. assumption. }
    destruct (copy_step rounds L P k v Q h1 h2 EL ND HL Hk Hr R0 S0 C0 B0) as (h1' & idx & h2' & E & R1 & S1 & C1 & B1).
    rewrite E. replace (zlen P + 1) with (zlen (P ++ [(k, v)])) by (unfold zlen; rewrite app_length; cbn [length]; lia).
    apply (IH _ _ h2'); auto. rewrite <- app_assoc. exact EL.
Qed.

Lemma start_ok (L : items_t) : exists h1 h2, create 8 = Some h1 /\ Rm (RN L) h1 h2 /\ sim' h2 (tab []) /\ clob h2 = false /\ zlen (cells h2) <= 128.
Proof.
  pose proof (create_simul (K1 := nkey) (V1 := unit) (K2 := list Z) (V2 := bool) (RN L) 8) as C.
  destruct (create_sim (V := bool) hash 3 ltac:(lia)) as (h & H1 & H2 & H3 & H4).
  change (2 ^ 3) with 8 in *. rewrite H1 in C. destruct (create 8) as [m|]; [|contradiction]. exists m, h.
  split; [reflexivity|]. split; [exact C|]. split; [exact H2|]. split; [exact H3|]. lia.
Qed.

Lemma copy_ok rounds b (o : object A) : ninv b o -> NoDup (map hash (map fst (oitems o))) -> zlen (oitems o) <= 64 -> (2 <= rounds)%nat ->
  exists o', copy hash rounds o = Some o' /\ oitems o' = oitems o /\ ninv true o'.
Proof.
  intros H ND HL Hr. unfold copy. destruct (start_ok (oitems o)) as (h1 & h2 & -> & R0 & S0 & C0 & B0).
  destruct (copy_items_ok rounds (oitems o) ND HL (N_len _ _ H) Hr (oitems o) [] h1 h2 eq_refl R0 S0 C0 B0) as (h1' & h2' & E & R1 & S1 & C1 & B1).
  change (zlen []) with 0 in E. rewrite E. cbn [option_map]. eexists. split; [reflexivity|]. split; [reflexivity|].
  split; cbn [oitems index]; [exact (N_len _ _ H)|exact (N_nodup _ _ H)|]. exists h2'. auto.
Qed.

Lemma copy_items_mono r r' (l : items_t) : (r <= r')%nat -> forall h i x, copy_items hash r h i l = Some x -> copy_items hash r' h i l = Some x.
Proof.
  intros Hr. induction l as [|[k v] l IH]; intros h i x; cbn [copy_items]; [auto|].
  destruct (HashMapModel.insert _ _ _ r h (Unset k)) as [[[h' j] b]|] eqn:E; [|discriminate].
  rewrite (insert_mono _ _ _ _ _ _ _ _ Hr E). destruct b; [discriminate|]. apply IH.
Qed.
Lemma copy_items_app r (l l' : items_t) : forall h i, copy_items hash r h i (l ++ l') =
  match copy_items hash r h i l with Some h => copy_items hash r h (i + zlen l) l' | None => None end.
Proof.
  induction l as [|[k v] l IH]; intros h i; cbn [copy_items app].
  - change (zlen []) with 0. rewrite Z.add_0_r. reflexivity.
  - destruct (HashMapModel.insert _ _ _ r h (Unset k)) as [[[h' j] [|]]|]; try reflexivity. rewrite IH.
    replace (i + 1 + zlen l) with (i + zlen ((k, v) :: l)) by (unfold zlen; cbn [length]; lia). reflexivity.
Qed.

Lemma walk_any {K V} n (t : list (@cell K V)) h k k' : forall i prev, walk (fun _ _ => true) n t h k i prev = walk (fun _ _ => true) n t h k' i prev.
Proof. induction n as [|n IH]; intros i prev; cbn [walk]; [reflexivity|]. cbv zeta. rewrite (IH _ (Next _)). reflexivity. Qed.
Lemma found_any {K V} (hs : K -> Z) (d : V) t k k' p prev : hs k = hs k' ->
  insertOrFind (fun _ _ => true) hs d t k true = Found p prev -> insertOrFind (fun _ _ => true) hs d t k' true = Found p prev.
Proof.
  intros E. unfold insertOrFind. rewrite E. cbv zeta. rewrite (walk_any _ _ _ k k'). cbn [negb].
  change (matches (fun _ _ => true) (getc t (hs k')) (hs k') k) with (matches (fun _ _ => true) (getc t (hs k')) (hs k') k').
  destruct (_ && _ && _); [discriminate|]. destruct (negb _ && _); [auto|].
  destruct (walk _ _ t (hs k') k' (hs k') (First (hs k'))); auto; try discriminate.
  destruct (_ <? _); [discriminate|]. destruct (probe _ _ _ _); discriminate.
Qed.

Lemma first_clash {B} (f : B -> Z) (l : list B) : NoDup (map f l) \/ exists p x q, l = p ++ x :: q /\ NoDup (map f p) /\ In (f x) (map f p).
Proof.
  induction l as [|x l IH] using rev_ind; [left; constructor|].
  destruct IH as [N|(p & y & q & -> & N & I)].
  - destruct (in_dec Z.eq_dec (f x) (map f l)) as [I|I].
    + right. exists l, x, []. auto.
    + left. rewrite map_app. apply (Permutation_NoDup (l := f x :: map f l)); [apply Permutation_cons_append|]. constructor; assumption.
  - right. exists p, y, (q ++ [x]). rewrite <- app_assoc. auto.
Qed.

Lemma copy_crash rounds b (o : object A) : ninv b o -> ~ NoDup (map hash (map fst (oitems o))) -> zlen (oitems o) <= 64 -> copy hash rounds o = None.
Proof.
  intros H ND HL. unfold copy. destruct (create 8) as [h0|] eqn:E0; [|reflexivity].
  destruct (copy_items hash rounds h0 0 (oitems o)) as [x|] eqn:E; [|reflexivity]. exfalso.
  apply (copy_items_mono _ (Nat.max 2 rounds)) in E; [|lia].
  destruct (first_clash (fun x => hash (fst x)) (oitems o)) as [N|(P & [k v] & Q & EL & N & I)].
  { apply ND. rewrite map_map. exact N. }
  rewrite EL, copy_items_app in E. destruct (start_ok P) as (h1 & h2 & E0' & R0 & S0 & C0 & B0). rewrite E0 in E0'. injection E0' as <-.
  assert (LP : zlen P <= 64) by (rewrite EL in HL; unfold zlen in *; rewrite app_length in HL; lia).
  assert (HF : Forall (fun x => zlen (fst x) < 2 ^ 32) P) by (pose proof (N_len _ _ H) as HF; rewrite EL in HF; apply Forall_app in HF; tauto).
  assert (N' : NoDup (map hash (map fst P))) by (rewrite map_map; exact N).
  destruct (copy_items_ok (Nat.max 2 rounds) P N' LP HF ltac:(lia) P [] h0 h2 eq_refl R0 S0 C0 B0) as (h1' & h2' & E1 & R1 & S1 & C1 & B1).
  change (zlen []) with 0 in E1. rewrite E1 in E. cbn [copy_items] in E.
  apply in_map_iff in I. destruct I as ([k0 v0] & Eh & I). cbn [fst] in Eh.
  assert (Hk0 : zlen k0 < 2 ^ 32) by (rewrite Forall_forall in HF; exact (HF _ I)).
  assert (AG : agree (fun _ _ : nkey => true) bytes_eqb hash (Unset k0) k0 (cells h1') (cells h2')).
  { intros j. pose proof (Rt_getc _ _ _ j (proj1 R1)) as (_ & _ & Q3 & Q4). unfold matches. rewrite Q3.
    destruct (it (getc (cells h2') j)) as [[k' w]|] eqn:Ec; [|destruct (it (getc (cells h1') j)); [contradiction|reflexivity]].
    destruct (it (getc (cells h1') j)) as [[? ?]|]; [|contradiction].
    destruct (cell_key h2' _ j k' w S1 Ec) as (E3 & Hin). apply tab_in in Hin. destruct Hin as (_ & Hin). rewrite E3.
    destruct (Z.eqb_spec (hash k') (hash k0)) as [E4|E4]; [|reflexivity]. cbn [andb]. symmetry. apply bok.
    apply in_map_iff in Hin. destruct Hin as ([k2 v2] & E5 & Hin). cbn in E5. subst k2.
    clear - N Hin I E4. induction P as [|[a c] P IH]; [destruct I|]. cbn [map fst] in N. inversion N as [|? ? N1 N2]; subst.
    destruct Hin as [Hin|Hin], I as [I|I].
    - congruence.
    - injection Hin as -> ->. exfalso. apply N1. rewrite E4. apply (in_map (fun x => hash (fst x)) _ _ I).
    - injection I as -> ->. exfalso. apply N1. rewrite <- E4. apply (in_map (fun x => hash (fst x)) _ _ Hin).
    - auto. }
  pose proof (iof_agree _ (nkey_hash hash) tt bytes_eqb hash false (RN P) (Unset k0) k0 eq_refl (conj Hk0 (conj eq_refl eq_refl)) _ _ true AG (proj1 R1)) as G.
  destruct S1 as ((C & HI & HP) & S2 & S3). pose proof (iof_ok bytes_eqb hash false bok Hhash (cells h2') C k0 HI) as F. cbv zeta in F.
  assert (Hab : absent (cells h2') k0 -> False).
  { intros Ha. apply (Ha true). rewrite S2. apply tab_in. split; [reflexivity|]. apply in_map_iff. exists (k0, v0). auto. }
  destruct (insertOrFind bytes_eqb hash false (cells h2') k0 true) as [p prev| | | |]; try contradiction; try (exfalso; tauto).
  destruct (insertOrFind (fun _ _ => true) (nkey_hash hash) tt (cells h1') (Unset k0) true) as [p' prev'| | | |] eqn:F1; try contradiction.
  apply (found_any _ _ _ _ (Unset k)) in F1; [|exact Eh].
  destruct (Nat.max 2 rounds) as [|n] eqn:En; [lia|]. cbn [HashMapModel.insert] in E. rewrite F1 in E. discriminate.
Qed.
End Nodes.
