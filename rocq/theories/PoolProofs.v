From Verif Require Import UtilSpec UtilModel UtilProofs ListUpd PoolModel PoolSpec.
From Coq Require Import ZifyBool ZifyNat.
Ltac Zify.zify_post_hook ::= Z.div_mod_to_equations.

Section P.
Context {A : Type}.
Notation pool := (@pool A).
Notation cell := (@cell A).

Fixpoint chain (c : list cell) (f : option nat) (fl : list nat) : Prop :=
  match fl with
  | [] => f = None
  | i :: r => f = Some i /\ exists n, nth_error c i = Some (Link n) /\ chain c n r
  end.

Record inv (p : pool) (m : @fmap A) : Prop := {
  inv_size : (size p <= length (items p))%nat;
  inv_bound : Z.of_nat (size p) <= 2 ^ 31 - 1;
  inv_items : forall i x, m i = Some x <-> ((i < size p)%nat /\ nth_error (items p) i = Some (Item x));
  inv_raw : forall i, (size p <= i < length (items p))%nat -> nth_error (items p) i = Some Raw;
  inv_fl : exists fl, chain (items p) (firstFree p) fl /\ NoDup fl /\ freeSize p = length fl /\
     (forall i, In i fl <-> ((i < size p)%nat /\ m i = None)) /\
     (sortedFree p = true -> StronglySorted lt fl)
}.

Lemma chain_link c f fl : chain c f fl -> forall i, In i fl -> exists n, nth_error c i = Some (Link n).
Proof.
  revert f. induction fl as [|j fl IH]; intros f H i Hi; [destruct Hi|].
  destruct H as (_ & n & Hn & Hc). destruct Hi as [<-|Hi]; [eauto|]. eapply IH; eauto.
Qed.

Lemma chain_ext c c' f fl : (forall i, In i fl -> nth_error c' i = nth_error c i) -> chain c f fl -> chain c' f fl.
Proof.
  revert f. induction fl as [|j fl IH]; intros f He H; [exact H|].
  destruct H as (-> & n & Hn & Hc). split; [reflexivity|]. exists n. split.
  - rewrite He by (left; reflexivity). exact Hn.
  - apply IH; [|exact Hc]. intros i Hi. apply He. right. exact Hi.
Qed.

Lemma inv_empty : inv empty_pool empty.
Proof.
  split; cbn.
  - lia.
  - lia.
  - intros i x. split; [discriminate|]. lia.
  - lia.
  - exists []. split; [reflexivity|]. split; [constructor|]. split; [reflexivity|]. split; [|constructor].
    intros i. split; [intros []|]. intros [H _]. lia.
Qed.

Lemma put_eq (m : @fmap A) i x : put m i x i = x.
Proof. unfold put. rewrite Nat.eqb_refl. reflexivity. Qed.
Lemma put_ne (m : @fmap A) i j x : i <> j -> put m i x j = m j.
Proof. intros H. unfold put. destruct (Nat.eqb_spec i j); [contradiction|reflexivity]. Qed.

Lemma new_ok p m x : inv p m -> allowed m (New x) ->
  exists p' i, newItem p x = Some (p', i) /\ m i = None /\ inv p' (put m i (Some x)).
Proof.
  intros [Hs Hb Hi Hr (fl & Hc & Hnd & Hfs & Hfl & Hso)] (i0 & Hi0 & Hm0).
  unfold newItem, baseAlloc. destruct (firstFree p) as [i|] eqn:Ef.
  - (* reuse the head of the free list *)
    destruct fl as [|j fl]; [discriminate Hc|]. destruct Hc as (Ej & n & Hn & Hc). injection Ej as <-.
    unfold link. rewrite Hn. rewrite Hfs. cbn [length].
    assert (Hmi : m i = None) by (apply Hfl; left; reflexivity).
    assert (Hlt : (i < size p)%nat) by (apply Hfl; left; reflexivity).
    assert (Ee : Bool.eqb (length fl =? 0)%nat (match n with None => true | _ => false end) = true).
    { destruct fl as [|j fl]; cbn in Hc |- *; [rewrite Hc; reflexivity|]. destruct Hc as [-> _]. reflexivity. }
    rewrite Ee. cbn [items]. rewrite Hn. eexists _, i. split; [reflexivity|]. split; [exact Hmi|].
    assert (Hl : (i < length (items p))%nat) by (eapply nth_lt; exact Hn).
    apply NoDup_cons_iff in Hnd as [Hni Hnd].
    split; cbn [items size firstFree sortedFree freeSize with_items].
    + rewrite upd_length. exact Hs.
    + exact Hb.
    + intros k y. destruct (Nat.eq_dec i k) as [<-|Hne].
      * rewrite put_eq, nth_upd_eq by exact Hl. split; intros H; [injection H as ->; auto|destruct H as [_ H]; congruence].
      * rewrite put_ne, nth_upd_ne by exact Hne. apply Hi.
    + intros k Hk. rewrite upd_length in Hk. rewrite nth_upd_ne by lia. apply Hr. exact Hk.
    + exists fl. split; [|split; [|split; [|split]]].
      * eapply chain_ext; [|exact Hc]. intros k Hk. apply nth_upd_ne. intros <-. contradiction.
      * exact Hnd.
      * reflexivity.
      * intros k. destruct (Nat.eq_dec i k) as [<-|Hne].
        -- rewrite put_eq. split; [contradiction|]. intros [_ H]. discriminate.
        -- rewrite put_ne by exact Hne. rewrite <- Hfl. cbn. split; [auto|]. intros [H|H]; [contradiction|exact H].
      * intros Hsf. specialize (Hso Hsf). inversion Hso. assumption.
  - (* a fresh cell at the end *)
    destruct fl as [|j fl]; [|destruct Hc as [Hc _]; discriminate].
    assert (Hfull : forall k, (k < size p)%nat -> m k <> None).
    { intros k Hk E. destruct (proj2 (Hfl k) (conj Hk E)). }
    assert (Hroom : Z.of_nat (size p) < 2 ^ 31 - 1).
    { destruct (Nat.lt_ge_cases i0 (size p)) as [H|H]; [exfalso; exact (Hfull _ H Hm0)|lia]. }
    assert (Hms : m (size p) = None).
    { destruct (m (size p)) as [y|] eqn:E; [|reflexivity]. apply Hi in E. lia. }
    change (2 ^ 31) with 2147483648 in *.
    (* after the reservation *)
    assert (Hres : exists p1, (if (length (items p) <=? size p)%nat then baseReserve p (u32 (Z.of_nat (size p) + 1)) else Some p) = Some p1 /\
       size p1 = size p /\ firstFree p1 = firstFree p /\ sortedFree p1 = sortedFree p /\ freeSize p1 = freeSize p /\
       (size p < length (items p1))%nat /\
       (forall k, (k < size p)%nat -> nth_error (items p1) k = nth_error (items p) k) /\
       (forall k, (size p <= k < length (items p1))%nat -> nth_error (items p1) k = Some Raw)).
    { destruct (Nat.leb_spec (length (items p)) (size p)) as [H|H].
      - unfold baseReserve. unfold u32. change (2 ^ 32) with 4294967296. rewrite (Z.mod_small (Z.of_nat (size p) + 1)) by lia.
        set (want := Z.max (Z.of_nat (size p) + 1) 8).
        assert (Hlp : least_pow2_above want (roundUpPowerOf2_32 want)).
        { apply roundUp32_ok. change (2 ^ 31) with 2147483648. unfold want. lia. }
        destruct Hlp as (_ & Hge & _). set (n := Z.to_nat (roundUpPowerOf2_32 want)).
        assert (Hn : (size p < n)%nat) by (unfold n, want in *; lia).
        replace (n =? 0)%nat with false by lia. eexists. split; [reflexivity|]. cbn [size firstFree sortedFree freeSize items].
        rewrite firstn_all2 by lia.
        split; [reflexivity|]. split; [reflexivity|]. split; [reflexivity|]. split; [reflexivity|].
        split; [rewrite app_length, repeat_length; lia|]. split.
        + intros k Hk. apply nth_error_app1. lia.
        + intros k Hk. rewrite app_length, repeat_length in Hk. rewrite nth_error_app2 by lia.
          apply nth_error_repeat. lia.
      - eexists. split; [reflexivity|]. do 4 (split; [reflexivity|]). split; [exact H|]. split; [reflexivity|]. exact Hr. }
    destruct Hres as (p1 & -> & E1 & E2 & E3 & E4 & Hlt & Hold & Hraw).
    cbn [items]. rewrite E1. rewrite (Hraw (size p)) by lia. eexists _, (size p).
    split; [reflexivity|]. split; [exact Hms|].
    split; cbn [items size firstFree sortedFree freeSize with_items].
    + rewrite upd_length. lia.
    + lia.
    + intros k y. destruct (Nat.eq_dec (size p) k) as [<-|Hne].
      * rewrite put_eq, nth_upd_eq by lia. split; [intros H; injection H as ->; split; [lia|reflexivity]|]. intros [_ H]. congruence.
      * rewrite put_ne, nth_upd_ne by exact Hne. rewrite Hi. split; intros [H1 H2].
        -- split; [lia|]. rewrite Hold; auto.
        -- assert (k < size p)%nat by lia. split; [assumption|]. rewrite <- Hold; auto.
    + intros k Hk. rewrite upd_length in Hk. rewrite nth_upd_ne by lia. apply Hraw. lia.
    + exists []. split; [cbn; rewrite E2; exact Ef|]. split; [constructor|]. split; [rewrite E4; exact Hfs|].
      split; [|constructor]. intros i. split; [intros []|].
      intros [H1 H2]. destruct (Nat.eq_dec (size p) i) as [<-|Hne].
      * rewrite put_eq in H2. discriminate.
      * rewrite put_ne in H2 by exact Hne. apply (Hfull i); [lia|exact H2].
Qed.

Lemma live_index p m i : inv p m -> m i <> None -> exists x, m i = Some x /\ (i < size p)%nat /\ nth_error (items p) i = Some (Item x).
Proof.
  intros Hv H. destruct (m i) as [x|] eqn:E; [|contradiction]. exists x. split; [reflexivity|].
  apply (inv_items _ _ Hv). exact E.
Qed.

Lemma del_ok p m i : inv p m -> m i <> None -> exists p', delItem p i = Some p' /\ inv p' (put m i None).
Proof.
  intros Hv Hm. destruct (live_index p m i Hv Hm) as (x & Em & Hlt & Hn).
  destruct Hv as [Hs Hb Hi Hr (fl & Hc & Hnd & Hfs & Hfl & Hso)].
  assert (Hni : ~ In i fl) by (intros H; apply Hfl in H as [_ H]; congruence).
  assert (Hlen : (length fl < size p)%nat).
  { pose proof (NoDup_incl_length (l := i :: fl) (l' := seq 0 (size p))) as H.
    rewrite seq_length in H. apply H; [constructor; assumption|].
    intros k [<-|Hk]; apply in_seq; [lia|]. apply Hfl in Hk. lia. }
  unfold delItem, baseFree. rewrite Hn. replace (i <? size p)%nat with true by lia.
  change (2 ^ 31) with 2147483648 in *. replace (Z.of_nat (freeSize p) <? 2147483648 - 1) with true by lia.
  eexists. split; [reflexivity|]. split; cbn [items size firstFree sortedFree freeSize].
  - rewrite upd_length. exact Hs.
  - exact Hb.
  - intros k y. destruct (Nat.eq_dec i k) as [<-|Hne].
    + rewrite put_eq, nth_upd_eq by lia. split; [discriminate|]. intros [_ H]. discriminate.
    + rewrite put_ne, nth_upd_ne by exact Hne. apply Hi.
  - intros k Hk. rewrite upd_length in Hk. rewrite nth_upd_ne by lia. apply Hr. exact Hk.
  - exists (i :: fl). split; [|split; [|split; [|split]]].
    + cbn. split; [reflexivity|]. exists (firstFree p). split; [apply nth_upd_eq; lia|].
      eapply chain_ext; [|exact Hc]. intros k Hk. apply nth_upd_ne. intros <-. contradiction.
    + constructor; assumption.
    + cbn. rewrite Hfs. reflexivity.
    + intros k. cbn [In]. destruct (Nat.eq_dec i k) as [<-|Hne].
      * rewrite put_eq. split; [intros _; split; [exact Hlt|reflexivity]|intros _; left; reflexivity].
      * rewrite put_ne by exact Hne. rewrite <- Hfl. split; [|auto]. intros [H|H]; [contradiction|exact H].
    + discriminate.
Qed.

Lemma get_ok p m i : inv p m -> m i <> None -> get p i = m i.
Proof.
  intros Hv Hm. destruct (live_index p m i Hv Hm) as (x & Em & Hlt & Hn). unfold get.
  replace (i <? size p)%nat with true by lia. rewrite Hn, Em. reflexivity.
Qed.

Lemma set_ok p m i x : inv p m -> m i <> None -> exists p', set p i x = Some p' /\ inv p' (put m i (Some x)).
Proof.
  intros Hv Hm. destruct (live_index p m i Hv Hm) as (y & Em & Hlt & Hn). unfold set.
  rewrite (get_ok p m i Hv Hm), Em. destruct Hv as [Hs Hb Hi Hr (fl & Hc & Hnd & Hfs & Hfl & Hso)].
  eexists. split; [reflexivity|]. split; cbn [items size firstFree sortedFree freeSize with_items].
  - rewrite upd_length. exact Hs.
  - exact Hb.
  - intros k z. destruct (Nat.eq_dec i k) as [<-|Hne].
    + rewrite put_eq, nth_upd_eq by lia. split; [intros H; injection H as ->; auto|]. intros [_ H]. congruence.
    + rewrite put_ne, nth_upd_ne by exact Hne. apply Hi.
  - intros k Hk. rewrite upd_length in Hk. rewrite nth_upd_ne by lia. apply Hr. exact Hk.
  - assert (Hni : ~ In i fl) by (intros H; apply Hfl in H as [_ H]; congruence).
    exists fl. split; [|split; [|split; [|split]]]; try assumption.
    + eapply chain_ext; [|exact Hc]. intros k Hk. apply nth_upd_ne. intros <-. contradiction.
    + intros k. destruct (Nat.eq_dec i k) as [<-|Hne].
      * rewrite put_eq. split; [contradiction|]. intros [_ H]. discriminate.
      * rewrite put_ne by exact Hne. apply Hfl.
Qed.

(* Sorting the free list. *)
Lemma ins_perm x l : Permutation (x :: l) (ins x l).
Proof.
  induction l as [|y l IH]; cbn; [reflexivity|]. destruct (x <=? y)%nat; [reflexivity|].
  rewrite perm_swap. constructor. exact IH.
Qed.
Lemma sort_perm l : Permutation l (std_sort l).
Proof. induction l as [|x l IH]; cbn; [reflexivity|]. rewrite <- ins_perm. constructor. exact IH. Qed.
Lemma ins_sorted x l : StronglySorted le l -> StronglySorted le (ins x l).
Proof.
  induction l as [|y l IH]; intros H; cbn; [repeat constructor|].
  inversion H as [|? ? H1 H2]; subst. destruct (Nat.leb_spec x y) as [Hle|Hlt].
  - constructor; [exact H|]. constructor; [exact Hle|]. eapply Forall_impl; [|exact H2]. cbn. intros. lia.
  - constructor; [apply IH; exact H1|]. eapply Permutation_Forall; [apply ins_perm|]. constructor; [lia|exact H2].
Qed.
Lemma sort_sorted l : StronglySorted le (std_sort l).
Proof. induction l as [|x l IH]; cbn; [constructor|apply ins_sorted; exact IH]. Qed.
Lemma sorted_lt l : StronglySorted le l -> NoDup l -> StronglySorted lt l.
Proof.
  induction 1 as [|x l H1 IH H2]; intros Hn; constructor.
  - apply IH. apply NoDup_cons_iff in Hn. tauto.
  - apply NoDup_cons_iff in Hn as [Hn _]. rewrite Forall_forall in H2 |- *. intros y Hy. specialize (H2 y Hy).
    assert (x <> y) by (intros ->; contradiction). lia.
Qed.

Lemma gather_chain p fl : forall f room, chain (items p) f fl -> (length fl <= room)%nat -> gather p room f = Some fl.
Proof.
  induction fl as [|i fl IH]; intros f room H Hr.
  - cbn in H. subst f. destruct room; reflexivity.
  - destruct H as (-> & n & Hn & Hc). cbn in Hr. destruct room as [|room]; [lia|]. cbn [gather]. unfold link. rewrite Hn.
    rewrite (IH n room Hc) by lia. reflexivity.
Qed.

Lemma relink_length (c : list cell) prev rest : length (relink c prev rest) = length c.
Proof. revert c prev. induction rest as [|n rest IH]; intros c prev; cbn; [apply upd_length|]. rewrite IH. apply upd_length. Qed.

Lemma relink_ok rest : forall (c : list cell) prev, NoDup (prev :: rest) -> (forall i, In i (prev :: rest) -> (i < length c)%nat) ->
  chain (relink c prev rest) (Some prev) (prev :: rest) /\
  forall k, ~ In k (prev :: rest) -> nth_error (relink c prev rest) k = nth_error c k.
Proof.
  induction rest as [|n rest IH]; intros c prev Hnd Hlt.
  - cbn. split.
    + split; [reflexivity|]. exists None. split; [|reflexivity]. apply nth_upd_eq. apply Hlt. left. reflexivity.
    + intros k Hk. apply nth_upd_ne. tauto.
  - apply NoDup_cons_iff in Hnd as [Hni Hnd]. cbn [relink].
    destruct (IH (upd c prev (Link (Some n))) n Hnd) as [H1 H2].
    { intros i Hi. rewrite upd_length. apply Hlt. right. exact Hi. }
    split.
    + cbn [chain]. split; [reflexivity|]. exists (Some n). split.
      * rewrite H2 by exact Hni. apply nth_upd_eq. apply Hlt. left. reflexivity.
      * exact H1.
    + intros k Hk. rewrite H2 by (intros H; apply Hk; right; exact H). apply nth_upd_ne. intros ->. apply Hk. left. reflexivity.
Qed.

Lemma sortFree_ok p m : inv p m -> exists p' fl, sortFreeList p = Some p' /\ inv p' m /\ size p' = size p /\
  chain (items p') (firstFree p') fl /\ StronglySorted lt fl /\ (forall i, In i fl <-> ((i < size p')%nat /\ m i = None)).
Proof.
  intros Hv. pose proof Hv as [Hs Hb Hi Hr (fl & Hc & Hnd & Hfs & Hfl & Hso)].
  unfold sortFreeList. destruct (sortedFree p) eqn:Es.
  { exists p, fl. do 4 (split; [first [reflexivity|assumption]|]). split; [apply Hso; reflexivity|exact Hfl]. }
  destruct (firstFree p) as [f|] eqn:Ef.
  2:{ exists p, []. destruct fl as [|? ?]; [|destruct Hc as [Hc _]; discriminate].
      split; [reflexivity|]. split; [exact Hv|]. split; [reflexivity|]. split; [exact Ef|]. split; [constructor|exact Hfl]. }
  destruct fl as [|j fl]; [discriminate Hc|]. assert (Ej : j = f) by (destruct Hc as [Hc _]; congruence). subst j.
  rewrite Hfs. cbn [length]. replace (S (length fl) =? 0)%nat with false by lia.
  rewrite (gather_chain p (f :: fl) (Some f) (S (length fl)) Hc) by (cbn; lia). cbn [length]. rewrite Nat.eqb_refl.
  pose proof (sort_perm (f :: fl)) as Hp. pose proof (sort_sorted (f :: fl)) as Hsd.
  assert (Hnd' : NoDup (std_sort (f :: fl))) by (eapply Permutation_NoDup; [exact Hp|exact Hnd]).
  pose proof (sorted_lt _ Hsd Hnd') as Hlt.
  destruct (std_sort (f :: fl)) as [|g rest] eqn:Esort.
  { apply Permutation_sym, Permutation_nil in Hp. discriminate. }
  assert (Hin : forall i, In i (g :: rest) <-> ((i < size p)%nat /\ m i = None)).
  { intros i. rewrite <- Hfl. split; intros H; [eapply Permutation_in; [apply Permutation_sym; exact Hp|exact H]|eapply Permutation_in; [exact Hp|exact H]]. }
  destruct (relink_ok rest (items p) g Hnd') as [Hch Hoth].
  { intros i H. apply Hin in H. lia. }
  assert (Hchain : chain (relink (items p) g rest) (Some g) (g :: rest)) by exact Hch.
  eexists _, (g :: rest). split; [reflexivity|]. cbn [size items firstFree].
  assert (Hinv : inv {| items := relink (items p) g rest; size := size p; firstFree := Some g; sortedFree := true; freeSize := S (length fl) |} m).
  { split; cbn [items size firstFree sortedFree freeSize].
    - rewrite relink_length. exact Hs.
    - exact Hb.
    - intros k y. split.
      + intros E. apply Hi in E as [E1 E2]. split; [exact E1|]. rewrite Hoth; [exact E2|]. intros H. apply Hin in H as [_ H].
        assert (m k = Some y) by (apply Hi; auto). congruence.
      + intros [E1 E2]. destruct (in_dec Nat.eq_dec k (g :: rest)) as [H|H].
        * destruct (chain_link _ _ _ Hchain k H) as [n Hn]. congruence.
        * rewrite Hoth in E2 by exact H. apply Hi. auto.
    - intros k Hk. rewrite relink_length in Hk. rewrite Hoth; [apply Hr; exact Hk|]. intros H. apply Hin in H. lia.
    - exists (g :: rest). split; [exact Hchain|]. split; [exact Hnd'|]. split; [|split; [exact Hin|intros _; exact Hlt]].
      apply Permutation_length in Hp. cbn in Hp |- *. exact Hp. }
  split; [exact Hinv|]. split; [reflexivity|]. split; [exact Hchain|]. split; [exact Hlt|exact Hin].
Qed.

(* Iteration with a sorted chain of the free cells from [i] on. *)
Definition from (i : nat) (m : @fmap A) : @fmap A := fun j => if (j <? i)%nat then None else m j.

Lemma lists_skip i (m : @fmap A) l : m i = None -> lists (from (S i) m) l -> lists (from i m) l.
Proof.
  intros Hm [H1 H2]. split; [exact H1|]. intros j x. rewrite H2. unfold from.
  destruct (Nat.ltb_spec j (S i)), (Nat.ltb_spec j i); try reflexivity; try lia.
  assert (j = i) by lia. subst. rewrite Hm. split; discriminate.
Qed.
Lemma lists_cons i (m : @fmap A) x l : m i = Some x -> lists (from (S i) m) l -> lists (from i m) ((i, x) :: l).
Proof.
  intros Hm [H1 H2]. split.
  - cbn. constructor; [exact H1|]. apply Forall_forall. intros j Hj. apply in_map_iff in Hj as ([j' y] & <- & Hj).
    cbn. apply H2 in Hj. unfold from in Hj. destruct (Nat.ltb_spec j' (S i)); [discriminate|lia].
  - intros j y. cbn [In]. rewrite H2. unfold from. destruct (Nat.ltb_spec j (S i)), (Nat.ltb_spec j i); try lia.
    + split; [|discriminate]. intros [E|E]; [injection E as <- <-; lia|discriminate].
    + assert (j = i) by lia. subst. rewrite Hm. split; [|intros E; injection E as ->; auto].
      intros [E|E]; [congruence|discriminate].
    + split; [|auto]. intros [E|E]; [injection E as <- <-; lia|exact E].
Qed.
Lemma lists_end i p m : inv p m -> (size p <= i)%nat -> lists (from i m) [].
Proof.
  intros Hv Hi. split; [constructor|]. intros j x. split; [intros []|]. unfold from.
  destruct (Nat.ltb_spec j i); [discriminate|]. intros E. apply (inv_items _ _ Hv) in E. lia.
Qed.

Lemma skip_ok p m : inv p m -> forall fuel i nf fl, (i <= size p)%nat -> (size p - i < fuel)%nat ->
  chain (items p) nf fl -> StronglySorted lt fl -> (forall k, In k fl <-> ((i <= k < size p)%nat /\ m k = None)) ->
  exists i' nf' fl', skipFree fuel p i nf = Some (i', nf') /\ (i <= i' <= size p)%nat /\
    (forall k, (i <= k < i')%nat -> m k = None) /\
    ((i' < size p)%nat -> m i' <> None) /\
    chain (items p) nf' fl' /\ StronglySorted lt fl' /\ (forall k, In k fl' <-> ((i' <= k < size p)%nat /\ m k = None)).
Proof.
  intros Hv. induction fuel as [|fuel IH]; intros i nf fl Hi Hf Hc Hso Hfl; [lia|]. cbn [skipFree].
  destruct (Nat.ltb_spec i (size p)) as [Hlt|Hge].
  2:{ exists i, nf, fl. split; [reflexivity|]. split; [lia|]. split; [intros; lia|]. split; [intros; lia|]. auto. }
  destruct fl as [|n fl].
  { cbn in Hc. subst nf. exists i, None, []. split; [reflexivity|]. split; [lia|]. split; [intros; lia|].
    split; [|split; [reflexivity|split; [constructor|exact Hfl]]].
    intros _ E. assert (In i []) as []. apply Hfl. split; [lia|exact E]. }
  pose proof Hc as (-> & n2 & Hn & Hc'). assert (Hn1 : (i <= n < size p)%nat /\ m n = None) by (apply Hfl; left; reflexivity).
  replace (n <? i)%nat with false by lia. inversion Hso as [|? ? Hso' Hall]; subst. rewrite Forall_forall in Hall.
  destruct (Nat.ltb_spec i n) as [Hin|Hin].
  - exists i, (Some n), (n :: fl). split; [reflexivity|]. split; [lia|]. split; [intros; lia|]. split; [|auto].
    intros _ E. assert (Hx : In i (n :: fl)) by (apply Hfl; split; [lia|exact E]).
    destruct Hx as [Hx|Hx]; [lia|]. specialize (Hall i Hx). lia.
  - assert (n = i) by lia. subst n. unfold link. rewrite Hn.
    destruct (IH (S i) n2 fl) as (i' & nf' & fl' & E & H1 & H2 & H3 & H4).
    + lia.
    + lia.
    + exact Hc'.
    + exact Hso'.
    + intros k. split.
      * intros Hk. pose proof (Hall k Hk). assert (Hx : In k (i :: fl)) by (right; exact Hk). apply Hfl in Hx. split; [lia|tauto].
      * intros [Hk1 Hk2]. assert (Hx : In k (i :: fl)) by (apply Hfl; split; [lia|exact Hk2]). destruct Hx as [Hx|Hx]; [lia|exact Hx].
    + exists i', nf', fl'. split; [exact E|]. split; [lia|]. split; [|auto].
      intros k Hk. destruct (Nat.eq_dec k i) as [->|]; [tauto|]. apply H2. lia.
Qed.

Lemma iter_ok p m : inv p m -> forall fuel i nf fl, (i <= size p)%nat -> (size p - i <= fuel)%nat ->
  chain (items p) nf fl -> StronglySorted lt fl -> (forall k, In k fl <-> ((i <= k < size p)%nat /\ m k = None)) ->
  exists l, iterFrom fuel p i nf = Some l /\ lists (from i m) l.
Proof.
  intros Hv. induction fuel as [|fuel IH]; intros i nf fl Hi Hf Hc Hso Hfl;
    destruct (skip_ok p m Hv (S (size p)) i nf fl Hi) as (i' & nf' & fl' & E & H1 & H2 & H3 & H4 & H5 & H6); try lia; try assumption;
    cbn [iterFrom]; rewrite E.
  - assert (i' = size p) by lia. subst i'. rewrite Nat.eqb_refl. exists []. split; [reflexivity|]. eapply lists_end; [exact Hv|lia].
  - assert (Hskip : forall d j l, (j + d = i')%nat -> (i <= j)%nat -> lists (from i' m) l -> lists (from j m) l).
    { induction d as [|d IHd]; intros j l Hj Hij Hl; [replace j with i' by lia; exact Hl|].
      apply lists_skip; [apply H2; lia|]. apply IHd; [lia|lia|exact Hl]. }
    destruct (Nat.eqb_spec i' (size p)) as [->|Hne].
    + exists []. split; [reflexivity|]. apply (Hskip (size p - i)%nat); [lia|lia|]. eapply lists_end; [exact Hv|lia].
    + assert (Hm : m i' <> None) by (apply H3; lia). rewrite (get_ok p m i' Hv Hm).
      destruct (m i') as [x|] eqn:Ex; [|contradiction].
      destruct (IH (S i') nf' fl') as (l & El & Hl).
      * lia.
      * lia.
      * exact H4.
      * exact H5.
      * intros k. rewrite H6. split; intros [Ha Hb]; split; try lia; try assumption.
        destruct (Nat.eq_dec k i') as [->|]; [congruence|lia].
      * rewrite El. eexists. split; [reflexivity|]. apply (Hskip (i' - i)%nat); [lia|lia|]. apply lists_cons; assumption.
Qed.

Lemma from_0 (m : @fmap A) l : lists (from 0 m) l -> lists m l.
Proof. intros H. exact H. Qed.

Lemma iterate_ok p m : inv p m -> exists p' l, iterate p = Some (p', l) /\ lists m l /\ inv p' m.
Proof.
  intros Hv. destruct (sortFree_ok p m Hv) as (p' & fl & E & Hv' & _ & Hc & Hso & Hfl). unfold iterate. rewrite E.
  destruct (iter_ok p' m Hv' (size p') 0 (firstFree p') fl) as (l & El & Hl); try lia; try assumption.
  { intros k. rewrite Hfl. split; intros [H1 H2]; split; try lia; assumption. }
  rewrite El. exists p', l. split; [reflexivity|]. split; [apply from_0; exact Hl|exact Hv'].
Qed.

Lemma destroy_ok p m : inv p m -> forall k i, (i + k <= size p)%nat -> (forall j, (i <= j < i + k)%nat -> m j <> None) ->
  exists l, destroyTo k p i = Some l /\ forall r, lists (from (i + k) m) r -> lists (from i m) (l ++ r).
Proof.
  intros Hv. induction k as [|k IH]; intros i Hik Hl.
  - exists []. split; [reflexivity|]. intros r Hr. rewrite Nat.add_0_r in Hr. exact Hr.
  - destruct (live_index p m i Hv (Hl i ltac:(lia))) as (x & Em & Hlt & Hn). cbn [destroyTo]. rewrite Hn.
    destruct (IH (S i)) as (l & El & Hr); [lia|intros j Hj; apply Hl; lia|]. rewrite El. eexists. split; [reflexivity|].
    intros r H. cbn [app]. apply lists_cons; [exact Em|]. apply Hr. replace (S i + k)%nat with (i + S k)%nat by lia. exact H.
Qed.

Lemma clear_ok p m : inv p m -> forall fuel i nf fl, (i <= size p)%nat -> (size p - i <= fuel)%nat ->
  chain (items p) nf fl -> StronglySorted lt fl -> (forall k, In k fl <-> ((i <= k < size p)%nat /\ m k = None)) ->
  exists l, clearFrom fuel p i nf = Some l /\ lists (from i m) l.
Proof.
  intros Hv fuel i nf fl. revert fuel i nf. induction fl as [|s fl IH]; intros fuel i nf Hi Hf Hc Hso Hfl.
  - cbn in Hc. subst nf.
    destruct (destroy_ok p m Hv (size p - i) i) as (l & El & Hl); [lia| |].
    { intros j Hj E. assert (In j []) as []. apply Hfl. split; [lia|exact E]. }
    exists l. split.
    + destruct fuel as [|fuel]; cbn [clearFrom]; rewrite El; rewrite Nat.max_r by lia; rewrite Nat.eqb_refl; reflexivity.
    + specialize (Hl []). rewrite app_nil_r in Hl. apply Hl. eapply lists_end; [exact Hv|lia].
  - destruct Hc as (-> & n & Hn & Hc). assert (Hs : (i <= s < size p)%nat /\ m s = None) by (apply Hfl; left; reflexivity).
    inversion Hso as [|? ? Hso' Hall]; subst. rewrite Forall_forall in Hall.
    destruct (destroy_ok p m Hv (s - i) i) as (l & El & Hl); [lia| |].
    { intros j Hj E. assert (Hx : In j (s :: fl)) by (apply Hfl; split; [lia|exact E]). destruct Hx as [Hx|Hx]; [lia|]. specialize (Hall j Hx). lia. }
    destruct fuel as [|fuel]; [lia|].
    destruct (IH fuel (S s) n) as (r & Er & Hr).
    + lia.
    + lia.
    + exact Hc.
    + exact Hso'.
    + intros k. split.
      * intros Hk. pose proof (Hall k Hk). assert (Hx : In k (s :: fl)) by (right; exact Hk). apply Hfl in Hx. split; [lia|tauto].
      * intros [Hk1 Hk2]. assert (Hx : In k (s :: fl)) by (apply Hfl; split; [lia|exact Hk2]). destruct Hx as [Hx|Hx]; [lia|exact Hx].
    + exists (l ++ r). split.
      * cbn [clearFrom]. rewrite El. rewrite Nat.max_r by lia. replace (s =? size p)%nat with false by lia.
        unfold link. rewrite Hn. rewrite Er. reflexivity.
      * apply Hl. replace (i + (s - i))%nat with s by lia. apply lists_skip; [tauto|exact Hr].
Qed.

Lemma step_ok p m o : inv p m -> allowed m o -> exists p' y m', step p o = Some (p', y) /\ spec_step m o y m' /\ inv p' m'.
Proof.
  intros Hv Ha. destruct o as [x|i|i|i x| |]; cbn [step].
  - destruct (new_ok p m x Hv Ha) as (p' & i & -> & Hm & Hv'). exists p', (Index i), (put m i (Some x)). auto using sp_new.
  - destruct (del_ok p m i Hv Ha) as (p' & -> & Hv'). exists p', Done, (put m i None). auto using sp_del.
  - cbn in Ha. rewrite (get_ok p m i Hv Ha). destruct (m i) as [x|] eqn:E; [|contradiction].
    exists p, (Value x), m. auto using sp_get.
  - destruct (set_ok p m i x Hv Ha) as (p' & -> & Hv'). exists p', Done, (put m i (Some x)). auto using sp_set.
  - destruct (iterate_ok p m Hv) as (p' & l & -> & Hl & Hv'). exists p', (Values l), m. auto using sp_iter.
  - destruct (sortFree_ok p m Hv) as (p' & fl & E & Hv' & _ & Hc & Hso & Hfl). unfold clear. rewrite E.
    destruct (clear_ok p' m Hv' (size p') 0 (firstFree p') fl) as (l & El & Hl); try lia; try assumption.
    { intros k. rewrite Hfl. split; intros [H1 H2]; split; try lia; assumption. }
    rewrite El. exists empty_pool, (Values l), empty. split; [reflexivity|]. split; [apply sp_clear; apply from_0; exact Hl|apply inv_empty].
Qed.

Theorem run_ok ops : forall p m, inv p m ->
  (exists p' ys m', run p ops = Some (p', ys) /\ spec_run m ops ys m') \/
  (exists ops1 o ops2 p' ys m', ops = ops1 ++ o :: ops2 /\ run p ops1 = Some (p', ys) /\ spec_run m ops1 ys m' /\ ~ allowed m' o).
Proof.
  induction ops as [|o ops IH]; intros p m Hv.
  - left. exists p, [], m. split; [reflexivity|constructor].
  - assert (Hdec : allowed m o \/ ~ allowed m o).
    { destruct o; cbn; try (destruct (m _); [left|right]; congruence); try tauto.
      (* room for a new item is decidable from the concrete pool *)
      destruct (Z.ltb_spec (Z.of_nat (size p)) (2 ^ 31 - 1)) as [H|H].
      - left. exists (size p). split; [exact H|]. destruct (m (size p)) as [y|] eqn:E; [|reflexivity].
        apply (inv_items _ _ Hv) in E. lia.
      - destruct (inv_fl _ _ Hv) as (fl & _ & _ & _ & Hfl & _). pose proof (inv_bound _ _ Hv).
        destruct fl as [|f fl].
        + right. intros (i & Hi & E). assert (In i []) as []. apply Hfl. split; [lia|exact E].
        + left. exists f. assert ((f < size p)%nat /\ m f = None) as [H1 H2] by (apply Hfl; left; reflexivity). split; [lia|exact H2]. }
    destruct Hdec as [Ha|Ha].
    + destruct (step_ok p m o Hv Ha) as (p1 & y & m1 & E & Hs & Hv1). cbn [run]. rewrite E.
      destruct (IH p1 m1 Hv1) as [(p' & ys & m' & Er & Hr)|(ops1 & o2 & ops2 & p' & ys & m' & -> & Er & Hr & Hn)].
      * left. exists p', (y :: ys), m'. rewrite Er. split; [reflexivity|]. econstructor; eassumption.
      * right. exists (o :: ops1), o2, ops2, p', (y :: ys), m'. split; [reflexivity|]. cbn [run]. rewrite E, Er.
        split; [reflexivity|]. split; [econstructor; eassumption|exact Hn].
    + right. exists [], o, ops, p, [], m. split; [reflexivity|]. split; [reflexivity|]. split; [constructor|exact Ha].
Qed.
End P.
