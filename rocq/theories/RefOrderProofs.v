(* Proofs about RefOrderModel (C46). *)
From Coq Require Import Lia ZifyBool ZifyNat.
From Verif Require Import RefCountProofs WeakMemProofs RefOrderModel.
Open Scope nat_scope.

Definition hsum (l : list oth) : Z := zsum (fun th => Z.of_nat (holds th)) l.
Definition fenced (mv : omove) : Prop := match mv with Drop f => f = true | _ => True end.

Record oinv (F : Prop) (s : ost) : Prop := mkoinv {
  o_wf : wfm (omem s);
  o_mle : mle (omem s);
  o_tle : forall t th, nth_error (oths s) t = Some th -> tle (ov th) (omem s);
  o_new : made s = false -> omem s = mem0 /\ hsum (oths s) = 0%Z;
  o_made : made s = true -> exists x, last_msg (omem s) cnt = Some x /\ val x = hsum (oths s) /\
    ((0 < hsum (oths s))%Z -> latest (omem s) made_at = 1 /\ 1 <= mview x made_at /\
      forall u th, nth_error (oths s) u = Some th -> vcur (ov th) (use_at u) = latest (omem s) (use_at u) /\
        (F -> holds th = 0 -> latest (omem s) (use_at u) <= mview x (use_at u))) }.

Lemma hsum_nonneg l : (0 <= hsum l)%Z.
Proof. apply zsum_nonneg. intros. lia. Qed.
Lemma hsum_upd l t th x : nth_error l t = Some th -> hsum (upd l t x) = (hsum l - Z.of_nat (holds th) + Z.of_nat (holds x))%Z.
Proof. intros H. apply (zsum_upd (fun th => Z.of_nat (holds th)) l t x th H). Qed.
Lemma hsum_ge l t th : nth_error l t = Some th -> (Z.of_nat (holds th) <= hsum l)%Z.
Proof. intros H. apply (zsum_ge (fun th => Z.of_nat (holds th)) l th); [intros; lia|]. eapply nth_error_In. exact H. Qed.
Lemma hsum_two l t u th th' : nth_error l t = Some th -> nth_error l u = Some th' -> t <> u -> (Z.of_nat (holds th) + Z.of_nat (holds th') <= hsum l)%Z.
Proof.
  intros Ht Hu N. assert (Hu' : nth_error (upd l t (mkoth (ov th) 0)) u = Some th') by (rewrite nth_upd_ne by exact N; exact Hu).
  pose proof (hsum_ge _ _ _ Hu'). rewrite (hsum_upd l t th) in H by exact Ht. cbn [holds] in H. lia.
Qed.
Lemma use_not_cnt u : use_at u <> cnt. Proof. unfold use_at, cnt. lia. Qed.
Lemma use_not_made u : use_at u <> made_at. Proof. unfold use_at, made_at. lia. Qed.
Lemma use_inj u w : use_at u = use_at w -> u = w. Proof. unfold use_at. lia. Qed.

(** A relaxed read-modify-write of the count. *)
Lemma cnt_rmw m t f : wfm m -> tle t m -> mle m -> exists x m' t', rmw Relaxed m t cnt f = Some (val x, m', t') /\ last_msg m cnt = Some x /\
  wfm m' /\ mle m' /\ tle t' m' /\ (forall l, l <> cnt -> latest m' l = latest m l) /\ (forall l, latest m l <= latest m' l) /\
  (forall l, vcur t l <= vcur t' l) /\ (forall l, mview x l <= vacq t' l) /\ vrel t' = vrel t /\
  exists y, last_msg m' cnt = Some y /\ val y = f (val x) /\ (forall l, mview x l <= mview y l) /\ (forall l, vrel t l <= mview y l).
Proof.
  intros W T M. destruct (last_some m cnt W) as (x & Ex & _). destruct (rmw Relaxed m t cnt f) as [[[v m'] t']|] eqn:E.
  2: { unfold rmw in E. fold (last_msg m cnt) in E. rewrite Ex in E. discriminate. }
  destruct (rmw_inv Relaxed m t cnt f v m' t' E W T M) as (x' & Ex' & -> & Em & W' & M' & T' & G & _ & _). rewrite Ex in Ex'. injection Ex' as <-.
  exists x, m', t'. split; [reflexivity|]. split; [exact Ex|]. do 3 (split; [assumption|]).
  split; [intros l Hl; rewrite Em; apply latest_other; exact Hl|]. split; [intros l; rewrite Em; apply latest_madd|]. split; [exact G|].
  unfold rmw in E. fold (last_msg m cnt) in E. rewrite Ex in E. cbv zeta in E. injection E as _ <-.
  split; [intros l; unfold wrote, seen; cbn [vacq]; unfold vset, vjoin; destruct (l =? cnt); lia|]. split; [reflexivity|].
  eexists. split; [rewrite Em; apply last_same; exact W|]. cbn [val mview]. split; [reflexivity|].
  split; intros l; unfold vjoin; [lia|]. unfold publish. cbn [is_release seen vrel]. unfold vset. destruct (l =? cnt); lia.
Qed.
Lemma tle_fence_release t m : tle t m -> tle (fence_release t) m.
Proof. intros (A & B & C). split; [|split]; cbn; assumption. Qed.
Lemma tle_fence_acquire t m : tle t m -> tle (fence_acquire t) m.
Proof. intros (A & B & C). split; [|split]; cbn; try assumption. apply vle_join; assumption. Qed.

(** The callback accesses only what it sees. *)
Lemma touch_all_ok ls : forall m v, wfm m -> tle v m -> mle m -> NoDup ls -> (forall l, In l ls -> vcur v l = latest m l) ->
  exists m' v', touch_all m v ls = inl (m', v') /\ wfm m' /\ mle m' /\ tle v' m' /\ (forall l, latest m l <= latest m' l) /\ (forall l, ~ In l ls -> last_msg m' l = last_msg m l).
Proof.
  induction ls as [|l ls IH]; intros m v W T M N S; cbn [touch_all].
  - exists m, v. do 4 (split; [auto|]). split; auto.
  - inversion N as [|? ? Nl N']; subst. destruct (touch_some m v l (fun x => x) W (S l (or_introl eq_refl))) as (x & m1 & v1 & E). rewrite E.
    destruct (touch_inv _ _ _ _ _ _ _ E W T M) as (y & _ & _ & _ & Em & W1 & M1 & T1 & G & _).
    destruct (IH m1 v1 W1 T1 M1 N') as (m' & v' & E' & W' & M' & T' & L' & O').
    { intros k Hk. assert (k <> l) by (intros ->; contradiction). assert (El : latest m1 k = latest m k) by (rewrite Em; apply latest_other; assumption).
      apply Nat.le_antisymm; [apply T1|]. rewrite El, <- (S k (or_intror Hk)). apply G. }
    exists m', v'. split; [exact E'|]. do 3 (split; [assumption|]). split.
    + intros k. specialize (L' k). pose proof (latest_madd m l k (mkmsg x vzero)). rewrite Em in L'. lia.
    + intros k Hk. rewrite O' by (intros X; apply Hk; right; exact X). rewrite Em. apply last_other. intros ->. apply Hk. left. reflexivity.
Qed.
(** Whatever the callback does not see first is not the construction. *)
Lemma touch_all_race ls : forall m v l, touch_all m v ls = inr l -> In l ls.
Proof. induction ls as [|k ls IH]; intros m v l; cbn [touch_all]; [discriminate|]. destruct (touch m v k (fun x => x)) as [[[? ?] ?]|]; [intros E; right; eapply IH; exact E|]. intros E. injection E as ->. left. reflexivity. Qed.

Lemma tle_up t m m' : tle t m -> (forall l, latest m l <= latest m' l) -> tle t m'.
Proof. intros (A & B & C) L. split; [|split]; intros l; specialize (L l); [specialize (A l)|specialize (B l)|specialize (C l)]; lia. Qed.

Definition onext (F : Prop) (n : nat) (x : ooutcome) : Prop :=
  match x with OMoved s' => oinv F s' /\ length (oths s') = n | OStuck => True | ORace l => ~ F /\ exists u, l = use_at u end.
Lemma ostep_ok (F : Prop) (dec : F \/ ~ F) s t mv : oinv F s -> (F -> fenced mv) -> onext F (length (oths s)) (ostep s t mv).
Proof.
  intros [W M T Hn Hm] Hf. unfold ostep. destruct (nth_error (oths s) t) as [[v h]|] eqn:Ht; [|exact I]. pose proof (T t _ Ht) as Tv. cbn [ov] in Tv.
  destruct mv as [|u sync| |f].
  - (* Make *)
    destruct (made s) eqn:Em; [exact I|]. destruct (Hn eq_refl) as (E0 & H0).
    assert (V0 : vcur v made_at = latest (omem s) made_at). { destruct Tv as (A & _). specialize (A made_at). rewrite E0 in *. cbn in *. lia. }
    destruct (touch_some (omem s) v made_at (fun _ => 1%Z) W V0) as (x1 & m1 & v1 & E1). rewrite E1.
    destruct (touch_inv _ _ _ _ _ _ _ E1 W Tv M) as (y & _ & _ & _ & Em1 & W1 & M1 & T1 & G1 & L1).
    destruct (cnt_rmw m1 (fence_release v1) (fun x => (x + 1)%Z) W1 (tle_fence_release _ _ T1) M1) as (x & m2 & v2 & E2 & Lx & W2 & M2 & T2 & O2 & U2 & G2 & _ & R2 & z & Lz & Vz & Z1 & Z2). rewrite E2.
    assert (Lm : latest m1 made_at = 1) by (rewrite Em1, latest_same by exact W; rewrite E0; reflexivity).
    assert (Ln : forall l, l <> made_at -> l <> cnt -> latest m2 l = 0). { intros l N1 N2. rewrite O2 by exact N2. rewrite Em1, latest_other by exact N1. rewrite E0. reflexivity. }
    assert (Up : forall l, latest (omem s) l <= latest m2 l) by (intros l; specialize (U2 l); pose proof (latest_madd (omem s) made_at l (mkmsg 1%Z vzero)); rewrite Em1 in U2; lia).
    cbn [onext oths]. rewrite upd_length. split; [|reflexivity]. constructor; cbn [omem oths made].
    + exact W2.
    + exact M2.
    + intros r th Hr. rewrite nth_upd in Hr. destruct (Nat.eqb_spec t r) as [<-|N]; [destruct (t <? _); [|discriminate]; injection Hr as <-; exact T2|]. apply (tle_up _ (omem s)); [apply (T r th Hr)|exact Up].
    + discriminate.
    + intros _. exists z. split; [exact Lz|]. pose proof (hsum_ge _ _ _ Ht) as Gh. cbn [holds] in Gh. rewrite (hsum_upd _ _ _ _ Ht). cbn [holds]. split.
      * rewrite Vz. assert (Ex : val x = 0%Z). { rewrite Em1, last_other in Lx by discriminate. rewrite E0 in Lx. cbn in Lx. injection Lx as <-. reflexivity. } lia.
      * intros _. split; [rewrite O2 by discriminate; exact Lm|]. split.
        -- specialize (Z2 made_at). cbn [fence_release vrel] in Z2. rewrite L1, Lm in Z2. exact Z2.
        -- intros r th Hr. pose proof (Ln (use_at r) (use_not_made r) (use_not_cnt r)) as Lr. rewrite Lr. split; [|lia].
           rewrite nth_upd in Hr. destruct (Nat.eqb_spec t r) as [<-|N].
           ++ destruct (t <? _); [|discriminate]. injection Hr as <-. destruct T2 as (A & _). specialize (A (use_at t)). cbn [ov]. lia.
           ++ destruct (T r th Hr) as (A & _). specialize (A (use_at r)). specialize (Up (use_at r)). lia.
  - (* Copy *)
    destruct (Nat.eqb_spec h 0) as [|Nh]; [exact I|]. pose proof (hsum_ge _ _ _ Ht) as Gh. cbn [holds] in Gh.
    destruct (made s) eqn:Em; [|destruct (Hn eq_refl); lia]. destruct (Hm eq_refl) as (x0 & Lx0 & V0 & Hp). destruct (Hp ltac:(lia)) as (Lm & Mm & Hu).
    destruct (cnt_rmw (omem s) v (fun x => (x + 1)%Z) W Tv M) as (x & m2 & v2 & E2 & Lx & W2 & M2 & T2 & O2 & U2 & G2 & _ & R2 & z & Lz & Vz & Z1 & Z2). rewrite E2.
    rewrite Lx0 in Lx. injection Lx as <-.
    destruct (nth_error (upd (oths s) t (mkoth v2 h)) u) as [[w k]|] eqn:Eu; [|exact I].
    set (w' := if sync then _ else w).
    assert (Own : forall r th, nth_error (upd (oths s) t (mkoth v2 h)) r = Some th -> tle (ov th) m2 /\ vcur (ov th) (use_at r) = latest m2 (use_at r) /\ (F -> holds th = 0 -> latest m2 (use_at r) <= mview z (use_at r))).
    { intros r th Hr. rewrite O2 by apply use_not_cnt. rewrite nth_upd in Hr. destruct (Nat.eqb_spec t r) as [<-|N].
      - destruct (t <? _); [|discriminate]. injection Hr as <-. cbn [ov holds]. split; [exact T2|]. split; [|lia]. destruct (Hu t _ Ht) as (A & _). cbn [ov] in A.
        apply Nat.le_antisymm; [destruct T2 as (B & _); specialize (B (use_at t)); rewrite O2 in B by apply use_not_cnt; exact B|]. rewrite <- A. apply G2.
      - split; [apply (tle_up _ (omem s)); [apply (T r th Hr)|exact U2]|]. destruct (Hu r th Hr) as (A & B). split; [exact A|]. intros HF H0. specialize (B HF H0). specialize (Z1 (use_at r)). lia. }
    destruct (Own u _ Eu) as (Tw & Aw & Bw). cbn [ov holds] in Tw, Aw, Bw.
    assert (Tw' : tle w' m2). { subst w'. destruct sync; [|exact Tw]. destruct Tw as (P & Q & R). destruct T2 as (P2 & _). split; [|split]; cbn; try assumption; apply vle_join; assumption. }
    assert (Gw : forall l, vcur w l <= vcur w' l) by (intros l; subst w'; destruct sync; cbn; unfold vjoin; lia).
    cbn [onext oths]. rewrite !upd_length. split; [|reflexivity]. constructor; cbn [omem oths made].
    + exact W2.
    + exact M2.
    + intros r th Hr. rewrite nth_upd in Hr. destruct (Nat.eqb_spec u r) as [<-|N]; [destruct (u <? _); [|discriminate]; injection Hr as <-; exact Tw'|]. apply (Own r th Hr).
    + discriminate.
    + intros _. exists z. split; [exact Lz|]. rewrite (hsum_upd _ _ _ _ Eu). rewrite (hsum_upd _ _ _ _ Ht). cbn [holds]. split; [rewrite Vz, V0; lia|].
      intros _. split; [rewrite O2 by discriminate; exact Lm|]. split; [specialize (Z1 made_at); lia|].
      intros r th Hr. rewrite nth_upd in Hr. destruct (Nat.eqb_spec u r) as [<-|N].
      * destruct (u <? _); [|discriminate]. injection Hr as <-. cbn [ov holds]. split; [|lia]. apply Nat.le_antisymm; [apply Tw'|]. rewrite <- Aw. apply Gw.
      * destruct (Own r th Hr) as (_ & A & B). auto.
  - (* Use *)
    destruct (Nat.eqb_spec h 0) as [|Nh]; [exact I|]. pose proof (hsum_ge _ _ _ Ht) as Gh. cbn [holds] in Gh.
    destruct (made s) eqn:Em; [|destruct (Hn eq_refl); lia]. destruct (Hm eq_refl) as (x0 & Lx0 & V0 & Hp). destruct (Hp ltac:(lia)) as (Lm & Mm & Hu).
    destruct (Hu t _ Ht) as (At & _). cbn [ov] in At. destruct (touch_some (omem s) v (use_at t) (fun x => (x + 1)%Z) W At) as (x1 & m1 & v1 & E1). rewrite E1.
    destruct (touch_inv _ _ _ _ _ _ _ E1 W Tv M) as (y & _ & _ & _ & Em1 & W1 & M1 & T1 & G1 & L1).
    assert (Up : forall l, latest (omem s) l <= latest m1 l) by (intros l; rewrite Em1; apply latest_madd).
    cbn [onext oths]. rewrite upd_length. split; [|reflexivity]. constructor; cbn [omem oths made].
    + exact W1.
    + exact M1.
    + intros r th Hr. rewrite nth_upd in Hr. destruct (Nat.eqb_spec t r) as [<-|N]; [destruct (t <? _); [|discriminate]; injection Hr as <-; exact T1|]. apply (tle_up _ (omem s)); [apply (T r th Hr)|exact Up].
    + discriminate.
    + intros _. exists x0. split; [rewrite Em1, last_other by (apply not_eq_sym, use_not_cnt); exact Lx0|]. rewrite (hsum_upd _ _ _ _ Ht). cbn [holds]. split; [lia|].
      intros _. split; [rewrite Em1, latest_other by (apply not_eq_sym, use_not_made); exact Lm|]. split; [exact Mm|].
      intros r th Hr. rewrite nth_upd in Hr. destruct (Nat.eqb_spec t r) as [<-|N].
      * destruct (t <? _); [|discriminate]. injection Hr as <-. cbn [ov holds]. split; [exact L1|lia].
      * rewrite Em1, latest_other by (intros X; apply use_inj in X; auto). apply (Hu r th Hr).
  - (* Drop *)
    destruct (Nat.eqb_spec h 0) as [|Nh]; [exact I|]. pose proof (hsum_ge _ _ _ Ht) as Gh. cbn [holds] in Gh.
    destruct (made s) eqn:Em; [|destruct (Hn eq_refl); lia]. destruct (Hm eq_refl) as (x0 & Lx0 & V0 & Hp). destruct (Hp ltac:(lia)) as (Lm & Mm & Hu).
    set (v1 := if f then fence_release v else v). assert (T1 : tle v1 (omem s)) by (subst v1; destruct f; [apply tle_fence_release|]; exact Tv).
    assert (Ev1 : vcur v1 = vcur v) by (subst v1; destruct f; reflexivity).
    destruct (cnt_rmw (omem s) v1 (fun x => (x - 1)%Z) W T1 M) as (x & m2 & v2 & E2 & Lx & W2 & M2 & T2 & O2 & U2 & G2 & A2 & R2 & z & Lz & Vz & Z1 & Z2). rewrite E2.
    rewrite Lx0 in Lx. injection Lx as <-. destruct (Hu t _ Ht) as (At & _). cbn [ov] in At.
    assert (Own : vcur v2 (use_at t) = latest m2 (use_at t)).
    { apply Nat.le_antisymm; [apply T2|]. rewrite O2 by apply use_not_cnt. rewrite <- At, <- Ev1. apply G2. }
    destruct (Z.eqb_spec (val x0) 1) as [V1|NV1].
    + (* the callback *)
      assert (S0 : hsum (upd (oths s) t (mkoth v2 (h - 1))) = 0%Z) by (rewrite (hsum_upd _ _ _ _ Ht); cbn [holds]; lia).
      assert (Fin : forall m' v', wfm m' -> mle m' -> tle v' m' -> (forall l, latest m2 l <= latest m' l) -> last_msg m' cnt = Some z -> oinv F (mko m' (upd (oths s) t (mkoth v' (h - 1))) true)).
      { intros m' v' W' M' T' L' C'. constructor; cbn [omem oths made]; auto.
        - intros r th Hr. rewrite nth_upd in Hr. destruct (Nat.eqb_spec t r) as [<-|N]; [destruct (t <? _); [|discriminate]; injection Hr as <-; exact T'|].
          apply (tle_up _ (omem s)); [apply (T r th Hr)|]. intros l. specialize (U2 l). specialize (L' l). lia.
        - discriminate.
        - intros _. exists z. split; [exact C'|]. assert (E0 : hsum (upd (oths s) t (mkoth v' (h - 1))) = 0%Z) by (rewrite (hsum_upd _ _ _ _ Ht); cbn [holds]; lia). rewrite E0. split; [rewrite Vz; lia|lia]. }
      unfold destroy. cbn [touch_all].
      assert (Sm : vcur (fence_acquire v2) made_at = latest m2 made_at).
      { apply Nat.le_antisymm; [apply tle_fence_acquire; exact T2|]. rewrite O2 by discriminate. rewrite Lm. cbn [fence_acquire vcur]. unfold vjoin. specialize (A2 made_at). lia. }
      destruct (touch_some m2 (fence_acquire v2) made_at (fun x => x) W2 Sm) as (y3 & m3 & v3 & E3). rewrite E3.
      destruct (touch_inv _ _ _ _ _ _ _ E3 W2 (tle_fence_acquire _ _ T2) M2) as (y & _ & _ & _ & Em3 & W3 & M3 & T3 & G3 & _).
      destruct dec as [HF|HF].
      * assert (St : forall l, In l (map use_at (seq 0 (length (oths s)))) -> vcur v3 l = latest m3 l).
        { intros l Hl. apply in_map_iff in Hl. destruct Hl as (r & <- & Hr). apply in_seq in Hr. apply Nat.le_antisymm; [apply T3|]. rewrite Em3, latest_other by apply use_not_made. rewrite O2 by apply use_not_cnt.
          specialize (G3 (use_at r)). cbn [fence_acquire vcur] in G3. unfold vjoin in G3. destruct (Nat.eq_dec r t) as [->|Nr].
          - rewrite O2 in Own by apply use_not_cnt. lia.
          - destruct (nth_error (oths s) r) as [th|] eqn:Er; [|apply nth_error_None in Er; lia]. destruct (Hu r th Er) as (_ & B). 
            pose proof (hsum_two _ _ _ _ _ Ht Er ltac:(congruence)) as Two. cbn [holds] in Two. specialize (B HF ltac:(lia)). specialize (A2 (use_at r)). lia. }
        destruct (touch_all_ok (map use_at (seq 0 (length (oths s)))) m3 v3 W3 T3 M3) as (m' & v' & E' & W' & M' & T' & L' & O'); [|exact St|].
        { apply FinFun.Injective_map_NoDup; [intros a b; apply use_inj|apply seq_NoDup]. }
        rewrite E'. cbn [onext oths]. rewrite upd_length. split; [|reflexivity]. apply Fin; auto.
        -- intros l. specialize (L' l). pose proof (latest_madd m2 made_at l (mkmsg y3 vzero)). rewrite Em3 in L'. lia.
        -- rewrite O' by (rewrite in_map_iff; intros (r & X & _); apply (use_not_cnt r X)). rewrite Em3, last_other by discriminate. exact Lz.
      * destruct (touch_all m3 v3 (map use_at (seq 0 (length (oths s))))) as [[m' v']|l] eqn:E'.
        -- (* no race by luck *)
           assert (Any : forall ls m v m' v', touch_all m v ls = inl (m', v') -> wfm m -> tle v m -> mle m -> NoDup ls -> wfm m' /\ mle m' /\ tle v' m' /\ (forall l, latest m l <= latest m' l) /\ (forall l, ~ In l ls -> last_msg m' l = last_msg m l)).
           { clear. induction ls as [|l ls IH]; intros m v m' v' E W T M N; cbn [touch_all] in E; [injection E as <- <-; auto|].
             destruct (touch m v l (fun x => x)) as [[[y m1] v1]|] eqn:E1; [|discriminate]. destruct (touch_inv _ _ _ _ _ _ _ E1 W T M) as (q & _ & _ & _ & Em & W1 & M1 & T1 & G & _). inversion N; subst.
             destruct (IH _ _ _ _ E W1 T1 M1 H2) as (W' & M' & T' & L' & O'). do 3 (split; [assumption|]). split.
             - intros k. specialize (L' k). pose proof (latest_madd m l k (mkmsg y vzero)). lia.
             - intros k Hk. rewrite O' by (intros X; apply Hk; right; exact X). apply last_other. intros ->. apply Hk. left. reflexivity. }
           destruct (Any _ _ _ _ _ E' W3 T3 M3) as (W' & M' & T' & L' & O'). { apply FinFun.Injective_map_NoDup; [intros a b; apply use_inj|apply seq_NoDup]. }
           cbn [onext oths]. rewrite upd_length. split; [|reflexivity]. apply Fin; auto.
           ++ intros l. specialize (L' l). pose proof (latest_madd m2 made_at l (mkmsg y3 vzero)). rewrite Em3 in L'. lia.
           ++ rewrite O' by (rewrite in_map_iff; intros (r & X & _); apply (use_not_cnt r X)). rewrite Em3, last_other by discriminate. exact Lz.
        -- cbn [onext]. split; [exact HF|]. apply touch_all_race in E'. apply in_map_iff in E'. destruct E' as (r & <- & _). eauto.
    + assert (Sp : hsum (upd (oths s) t (mkoth v2 (h - 1))) = (hsum (oths s) - 1)%Z) by (rewrite (hsum_upd _ _ _ _ Ht); cbn [holds]; lia).
      cbn [onext oths]. rewrite upd_length. split; [|reflexivity]. constructor; cbn [omem oths made]; auto.
      * intros r th Hr. rewrite nth_upd in Hr. destruct (Nat.eqb_spec t r) as [<-|N]; [destruct (t <? _); [|discriminate]; injection Hr as <-; exact T2|]. apply (tle_up _ (omem s)); [apply (T r th Hr)|exact U2].
      * discriminate.
      * intros _. exists z. split; [exact Lz|]. rewrite Sp. split; [rewrite Vz; lia|]. intros _. split; [rewrite O2 by discriminate; exact Lm|]. split; [specialize (Z1 made_at); lia|].
        intros r th Hr. rewrite nth_upd in Hr. destruct (Nat.eqb_spec t r) as [<-|N].
        -- destruct (t <? _); [|discriminate]. injection Hr as <-. cbn [ov holds]. split; [exact Own|]. intros HF _. specialize (Hf HF). cbn in Hf. subst f. specialize (Z2 (use_at t)). cbn [v1 fence_release vrel] in Z2.
           rewrite O2 by apply use_not_cnt. rewrite <- At. exact Z2.
        -- rewrite O2 by apply use_not_cnt. destruct (Hu r th Hr) as (A & B). split; [exact A|]. intros HF H0. specialize (B HF H0). specialize (Z1 (use_at r)). lia.
Qed.

Lemma oinv_init F n : oinv F (oinit n).
Proof.
  constructor; cbn [oinit omem oths made].
  - exact wfm0.
  - exact mle0.
  - intros t th Ht. apply nth_error_In, repeat_spec in Ht. subst. apply tle0.
  - intros _. split; [reflexivity|]. apply zsum_zero. intros th Hth. apply repeat_spec in Hth. subst. reflexivity.
  - discriminate.
Qed.
Lemma orun_ok (F : Prop) (dec : F \/ ~ F) l : forall s, oinv F s -> (F -> Forall (fun x => fenced (snd x)) l) ->
  match orun s l with ORace k => ~ F /\ exists u, k = use_at u | _ => True end.
Proof.
  induction l as [|[t m] l IH]; intros s H Hf; cbn [orun]; [exact I|].
  assert (Hl : F -> Forall (fun x => fenced (snd x)) l) by (intros HF; specialize (Hf HF); inversion Hf; assumption).
  pose proof (ostep_ok F dec s t m H) as K. unfold onext in K. destruct (ostep s t m) as [s'| |k].
  - apply IH; [apply K|exact Hl]. intros HF. specialize (Hf HF). inversion Hf; assumption.
  - apply IH; assumption.
  - apply K. intros HF. specialize (Hf HF). inversion Hf; assumption.
Qed.
Theorem construction_seen n l : orun (oinit n) l <> ORace made_at.
Proof.
  intros E. pose proof (orun_ok False (or_intror (fun x => x)) l (oinit n) (oinv_init False n) (fun x => match x with end)) as K.
  rewrite E in K. destruct K as (_ & u & X). symmetry in X. apply (use_not_made u X).
Qed.
Theorem fenced_uses_seen n l : Forall (fun x => fenced (snd x)) l -> forall k, orun (oinit n) l <> ORace k.
Proof.
  intros Hf k E. pose proof (orun_ok True (or_introl I) l (oinit n) (oinv_init True n) (fun _ => Hf)) as K. rewrite E in K. destruct K as (N & _). apply N. exact I.
Qed.
