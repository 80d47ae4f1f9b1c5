(* Proofs about input streams. *)
From Coq Require Import ZifyBool ZifyNat.
From Verif Require Import InStreamModel InStreamSpec.
Ltac Zify.zify_post_hook ::= Z.div_mod_to_equations.

Lemma zlen_app {A} (a b : list A) : zlen (a ++ b) = zlen a + zlen b.
Proof. unfold zlen. rewrite app_length. lia. Qed.
Lemma zlen_nonneg {A} (l : list A) : 0 <= zlen l.
Proof. unfold zlen. lia. Qed.
Lemma zlen_skipn {A} n (l : list A) : 0 <= n -> zlen (skipn (Z.to_nat n) l) = Z.max 0 (zlen l - n).
Proof. intros H. unfold zlen. rewrite skipn_length. lia. Qed.

Definition flat (ch : list (@block Z)) : list Z := concat (map bitems ch).
Lemma flat_app a b : flat (a ++ b) = flat a ++ flat b.
Proof. unfold flat. rewrite map_app. apply concat_app. Qed.
Lemma flat_cons b r : flat (b :: r) = bitems b ++ flat r.
Proof. reflexivity. Qed.

Section Proofs.
Context (cut : nat -> nat) (blk : Z) (source : list Z).
Hypothesis (Hblk : 100 < blk < 2 ^ 32) (Hsrc : zlen source < 2 ^ 63).

Fixpoint linked (f : Z) (ch : list (@block Z)) : Prop :=
  match ch with [] => True | b :: r => boff b = f /\ linked (f + usedOf b) r end.
Lemma linked_app a : forall f b, linked f (a ++ b) <-> linked f a /\ linked (f + zlen (flat a)) b.
Proof.
  induction a as [|x a IH]; intros f b; cbn [app linked]; [change (flat []) with (@nil Z); unfold zlen; cbn [length]; rewrite Z.add_0_r; tauto|].
  rewrite IH, flat_cons, zlen_app. unfold usedOf. rewrite Z.add_assoc. tauto.
Qed.
Definition okb (b : @block Z) : Prop := bsize b = blk /\ usedOf b <= blk /\ boff b mod blk = 0.
Lemma mod_at o q : o mod blk = 0 -> 0 <= q <= blk -> (o + q) mod blk = if q <? blk then q else 0.
Proof.
  intros Ho Hq. rewrite Z.add_mod, Ho, Z.add_0_l, Z.mod_mod by lia. destruct (Z.ltb_spec q blk) as [H|H]; [apply Z.mod_small; lia|]. replace q with blk by lia. rewrite Z_mod_same_full. reflexivity.
Qed.
Definition markOk (ch : list (@block Z)) (m : option (nat * Z)) (p : option Z) : Prop :=
  match m, p with
  | None, None => True
  | Some (i, q), Some p => exists b, nth_error ch i = Some b /\ 0 <= q <= usedOf b /\ p = boff b + q
  | _, _ => False
  end.
Record Base (s : stream) (ms : list (option Z)) : Prop := {
  b_src : exists pre, source = pre ++ flat (chain s) ++ src s /\ linked (zlen pre) (chain s);
  b_ok : Forall okb (chain s);
  b_marks : Forall2 (markOk (chain s)) (marks s) ms;
  b_full : forall i b, nth_error (chain s) i = Some b -> (S i < length (chain s))%nat -> usedOf b = blk }.
Record At (s : stream) (b : @block Z) (p : Z) (e : bool) : Prop := {
  a_gone : gone s = false;
  a_b : nth_error (chain s) (cb s) = Some b;
  a_pos : 0 <= pos s <= usedOf b;
  a_lim : lim s = usedOf b;
  a_p : p = boff b + pos s;
  a_eof : eof s = e;
  a_end : e = true -> src s = [] /\ S (cb s) = length (chain s) }.
Record Gone (s : stream) (p : Z) (e : bool) : Prop := {
  g_gone : gone s = true; g_pos : pos s = 0; g_lim : lim s = 0; g_e : e = true; g_eof : eof s = true; g_p : p = zlen source }.
Definition Inv (s : stream) (u : user) : Prop :=
  Base s (saved u) /\ ((closed u = false /\ exists b, At s b (at_ u) (ended u)) \/ (closed u = true /\ Gone s (at_ u) (ended u))).

Lemma nth_split {A} (l : list A) i b : nth_error l i = Some b -> exists a c, l = a ++ b :: c /\ length a = i /\ skipn (S i) l = c.
Proof.
  intros H. apply nth_error_split in H. destruct H as (a & c & -> & <-). exists a, c. split; [reflexivity|]. split; [reflexivity|].
  replace (S (length a)) with (length (a ++ [b])) by (rewrite app_length; cbn [length]; lia). change (a ++ b :: c) with (a ++ [b] ++ c). rewrite app_assoc, skipn_app, skipn_all, Nat.sub_diag. reflexivity.
Qed.
Lemma offsets s ms i b : Base s ms -> nth_error (chain s) i = Some b -> 0 <= boff b /\ boff b + usedOf b <= zlen source /\
  (forall nb, nth_error (chain s) (S i) = Some nb -> boff nb = boff b + usedOf b).
Proof.
  intros B H. destruct (b_src _ _ B) as (pre & E & L). destruct (nth_split _ _ _ H) as (a & c & Ec & La & Sk). rewrite Ec in L, E. apply linked_app in L. destruct L as (_ & Lb & Lc). rewrite Lb, E.
  pose proof (zlen_nonneg pre). pose proof (zlen_nonneg (flat a)). rewrite !zlen_app, flat_app, flat_cons, !zlen_app. unfold usedOf. pose proof (zlen_nonneg (flat c)). pose proof (zlen_nonneg (src s)). split; [lia|]. split; [lia|].
  intros nb Hn. destruct c as [|x c]; [|].
  - rewrite Ec, nth_error_app2 in Hn by lia. replace (S i - length a)%nat with 1%nat in Hn by lia. discriminate.
  - rewrite Ec, nth_error_app2 in Hn by lia. replace (S i - length a)%nat with 1%nat in Hn by lia. cbn [nth_error] in Hn. injection Hn as <-. cbn [linked] in Lc. unfold usedOf in Lc. lia.
Qed.
Lemma rest_at s ms i b q : Base s ms -> nth_error (chain s) i = Some b -> 0 <= q <= usedOf b ->
  rest source (boff b + q) = skipn (Z.to_nat q) (bitems b) ++ flat (skipn (S i) (chain s)) ++ src s.
Proof.
  intros B H Hq. destruct (b_src _ _ B) as (pre & E & L). destruct (nth_split _ _ _ H) as (a & c & Ec & La & Sk). rewrite Sk. rewrite Ec in L, E. apply linked_app in L. destruct L as (_ & Lb & Lc). rewrite Lb, E.
  unfold rest. rewrite flat_app, flat_cons. unfold usedOf in Hq. replace (Z.to_nat (zlen pre + zlen (flat a) + q)) with (length (pre ++ flat a) + Z.to_nat q)%nat by (rewrite app_length; unfold zlen; lia).
  rewrite <- !app_assoc, (app_assoc pre). rewrite skipn_app. rewrite (skipn_all2 (pre ++ flat a)) by lia. cbn [app]. replace (length (pre ++ flat a) + Z.to_nat q - length (pre ++ flat a))%nat with (Z.to_nat q) by lia.
  rewrite skipn_app. replace (Z.to_nat q - length (bitems b))%nat with 0%nat by (unfold zlen in Hq; lia). reflexivity.
Qed.
Lemma view_at s b p e : At s b p e -> view s = skipn (Z.to_nat (pos s)) (bitems b).
Proof.
  intros A. unfold view. rewrite (a_gone _ _ _ _ A), (a_b _ _ _ _ A), (a_lim _ _ _ _ A). apply firstn_all2. rewrite skipn_length. pose proof (a_pos _ _ _ _ A). unfold usedOf, zlen in *. lia.
Qed.
Lemma view_len s b p e : At s b p e -> zlen (view s) = usedOf b - pos s.
Proof. intros A. rewrite (view_at _ _ _ _ A). pose proof (a_pos _ _ _ _ A). rewrite zlen_skipn by lia. unfold usedOf in *. lia. Qed.

(** Marks stay right when blocks grow or are appended. *)
Definition grows (ch ch' : list (@block Z)) : Prop := forall i b, nth_error ch i = Some b -> exists b', nth_error ch' i = Some b' /\ boff b' = boff b /\ usedOf b <= usedOf b'.
Lemma marks_grow ch ch' l ms : grows ch ch' -> Forall2 (markOk ch) l ms -> Forall2 (markOk ch') l ms.
Proof.
  intros G F. induction F as [|m p l ms H F IH]; constructor; [|exact IH]. destruct m as [(i, q)|], p as [p|]; cbn in *; try exact H. destruct H as (b & Hb & Hq & ->). destruct (G i b Hb) as (b' & Hb' & E & U). exists b'. split; [exact Hb'|]. split; [lia|congruence].
Qed.
Lemma marks_dead s ms : Base s ms -> onlyRef s = true -> S (cb s) = length (chain s) -> forall ch, Forall2 (markOk ch) (marks s) ms.
Proof.
  intros B O L ch. pose proof (b_marks _ _ B) as F. unfold onlyRef in O. clear B. revert O. induction F as [|m p l ms' H F IH]; intros O; [constructor|]. cbn [forallb] in O. apply andb_true_iff in O. destruct O as (O1 & O2). constructor; [|apply IH; exact O2].
  destruct m as [(i, q)|], p as [p|]; cbn in *; try exact H. destruct H as (b & Hb & _). assert ((i < length (chain s))%nat) by (apply nth_error_Some; congruence). lia.
Qed.

Definition okReq (p n : Z) : Prop := 1 <= n /\ p mod blk + n <= blk.
Definition enough (s : stream) (b : @block Z) (n : Z) : Prop := n <= usedOf b - pos s \/ S (cb s) = length (chain s) /\ n <= bsize b - pos s.

Lemma findRoom_ok n ms p : okReq p n -> forall fuel s b e, Base s ms -> At s b p e -> (length (chain s) - cb s < fuel)%nat ->
  exists s' b', findRoom blk fuel s n = Some s' /\ Base s' ms /\ At s' b' p e /\ enough s' b' n.
Proof.
  intros Hn. induction fuel as [|fuel IH]; intros s b e B A Hf; [lia|]. cbn [findRoom]. rewrite (a_b _ _ _ _ A). pose proof (a_pos _ _ _ _ A) as Hp. rewrite (a_lim _ _ _ _ A).
  replace ((0 <=? pos s) && (pos s <=? usedOf b) && (usedOf b =? usedOf b)) with true by lia.
  destruct (Z.leb_spec n (usedOf b - pos s)) as [Hle|Hgt]; [exists s, b; split; [reflexivity|]; split; [exact B|]; split; [exact A|left; exact Hle]|].
  destruct (offsets s ms (cb s) b B (a_b _ _ _ _ A)) as (O1 & O2 & O3). assert (Hok : okb b) by (eapply Forall_forall; [exact (b_ok _ _ B)|eapply nth_error_In; exact (a_b _ _ _ _ A)]). destruct Hok as (K1 & K2 & K3).
  destruct (nth_error (chain s) (S (cb s))) as [nb|] eqn:En.
  - assert (Hlen : (S (cb s) < length (chain s))%nat) by (apply nth_error_Some; congruence).
    assert (Hun : usedOf b - pos s = 0). { pose proof (b_full _ _ B _ _ (a_b _ _ _ _ A) Hlen) as Hfu. destruct Hn as (Hn1 & Hn). rewrite (a_p _ _ _ _ A), (mod_at _ _ K3) in Hn by lia. destruct (Z.ltb_spec (pos s) blk); lia. }
    rewrite Hun. cbn [Z.ltb Z.compare]. rewrite (O3 nb eq_refl). replace (boff b + usedOf b - boff b) with (usedOf b) by lia. unfold u64. rewrite Z.mod_small by lia.
    unfold toU32. replace ((0 <=? usedOf b) && (usedOf b <? 2 ^ 32)) with true by lia. rewrite Z.sub_diag. unfold u32. rewrite Z.mod_0_l by lia. pose proof (zlen_nonneg (bitems nb)) as Hnb. replace (0 <=? usedOf nb) with true by (unfold usedOf; lia).
    apply (IH _ nb e).
    + destruct B as [B1 B2 B3 B4]. constructor; assumption.
    + constructor; cbn [setPos gone chain cb pos lim eof src]; [exact (a_gone _ _ _ _ A)|exact En|unfold usedOf; lia|reflexivity|rewrite (O3 nb eq_refl), (a_p _ _ _ _ A); lia|exact (a_eof _ _ _ _ A)|].
      intros He. destruct (a_end _ _ _ _ A He) as (_ & L). lia.
    + cbn [setPos chain cb]. lia.
  - apply nth_error_None in En. assert (Hlast : S (cb s) = length (chain s)) by (assert ((cb s < length (chain s))%nat) by (apply nth_error_Some; rewrite (a_b _ _ _ _ A); discriminate); lia).
    destruct (Z.ltb_spec (bsize b - pos s) n) as [Hlt|Hge]; [|exists s, b; split; [reflexivity|]; split; [exact B|]; split; [exact A|right; auto]].
    assert (Hfull : pos s = usedOf b /\ usedOf b = blk /\ n <= blk). { destruct Hn as (Hn1 & Hn). rewrite (a_p _ _ _ _ A), (mod_at _ _ K3) in Hn by lia. destruct (Z.ltb_spec (pos s) blk); lia. } destruct Hfull as (F1 & F2 & F3).
    assert (Hal : (boff b + usedOf b) mod blk = 0) by (rewrite F2, (mod_at _ _ K3) by lia; rewrite Z.ltb_irrefl; reflexivity).
    assert (Hu : u64 (boff b + usedOf b) = boff b + usedOf b) by (unfold u64; apply Z.mod_small; lia).
    destruct (b_src _ _ B) as (pre & E & L). destruct (nth_split _ _ _ (a_b _ _ _ _ A)) as (a & c & Ec & La & Sk). assert (c = []) by (destruct c; [reflexivity|]; rewrite Ec, app_length in Hlast; cbn [length] in Hlast; lia). clear Sk. subst c.
    assert (Loff : boff b + usedOf b = zlen pre + zlen (flat (chain s))). { rewrite Ec in L |- *. apply linked_app in L. destruct L as (_ & Lb & _). rewrite Lb, flat_app, flat_cons, !zlen_app. unfold usedOf. change (zlen (flat [])) with 0. lia. }
    unfold appendWithRecycle. rewrite Hu. replace (Z.max n blk) with blk by lia. rewrite K1, Z.eqb_refl. destruct (onlyRef s) eqn:Eo; cbn [andb].
    + exists (mki [mkb [] blk (boff b + usedOf b)] 0 0 0 (eof s) (gone s) (marks s) (src s) (calls s)), (mkb [] blk (boff b + usedOf b)). split; [reflexivity|]. split; [|split].
      * constructor; cbn [chain src marks]; [|constructor; [|constructor]; unfold okb, usedOf; cbn [bsize bitems boff]; change (zlen (@nil Z)) with 0; split; [reflexivity|]; split; [lia|exact Hal]|apply marks_dead; assumption|intros i x _ Hi; cbn [length] in Hi; lia].
        exists (pre ++ flat (chain s)). split; [rewrite <- app_assoc; exact E|]. cbn [linked boff]. rewrite zlen_app. split; [exact Loff|exact I].
      * constructor; cbn [gone chain cb pos lim eof src nth_error boff]; [exact (a_gone _ _ _ _ A)|reflexivity|unfold usedOf; cbn [bitems]; change (zlen (@nil Z)) with 0; lia|reflexivity|rewrite (a_p _ _ _ _ A); lia|exact (a_eof _ _ _ _ A)|].
        intros He. split; [apply (a_end _ _ _ _ A He)|reflexivity].
      * right. cbn [cb chain length pos bsize]. split; [reflexivity|lia].
    + unfold createBlock. replace (100 <? blk) with true by lia. set (nb := mkb [] blk (boff b + usedOf b)). exists (mki (chain s ++ [nb]) (S (cb s)) 0 0 (eof s) (gone s) (marks s) (src s) (calls s)), nb. split; [reflexivity|]. split; [|split].
      * constructor; cbn [chain src marks]; [| | |].
        -- exists pre. split; [rewrite flat_app; cbn; rewrite app_nil_r; exact E|]. apply linked_app. split; [exact L|]. cbn [linked]. split; [cbn [boff nb]; exact Loff|exact I].
        -- apply Forall_app. split; [exact (b_ok _ _ B)|]. constructor; [|constructor]. unfold okb, usedOf, nb; cbn [bsize bitems boff]; change (zlen (@nil Z)) with 0. split; [reflexivity|]. split; [lia|exact Hal].
        -- eapply marks_grow; [|exact (b_marks _ _ B)]. intros i x Hx. exists x. split; [rewrite nth_error_app1 by (apply nth_error_Some; congruence); exact Hx|]. split; [reflexivity|lia].
        -- intros i x Hx Hi. rewrite app_length in Hi. cbn [length] in Hi. rewrite nth_error_app1 in Hx by lia. destruct (Nat.eq_dec i (cb s)) as [->|Ni]; [rewrite (a_b _ _ _ _ A) in Hx; injection Hx as <-; exact F2|]. apply (b_full _ _ B _ _ Hx). lia.
      * constructor; cbn [gone chain cb pos lim eof src]; [exact (a_gone _ _ _ _ A)|rewrite nth_error_app2 by lia; replace (S (cb s) - length (chain s))%nat with 0%nat by lia; reflexivity|unfold usedOf, nb; cbn [bitems]; change (zlen (@nil Z)) with 0; lia|reflexivity|unfold nb; cbn [boff]; rewrite (a_p _ _ _ _ A); lia|exact (a_eof _ _ _ _ A)|].
        intros He. split; [apply (a_end _ _ _ _ A He)|rewrite app_length; cbn [length]; lia].
      * right. cbn [cb chain pos]. rewrite app_length. cbn [length]. split; [lia|unfold nb; cbn [bsize]; lia].
Qed.

Lemma zlen_firstn {A} k (l : list A) : (k <= length l)%nat -> zlen (firstn k l) = Z.of_nat k.
Proof. intros H. unfold zlen. rewrite firstn_length. lia. Qed.
Lemma fill_ok n ms : forall fuel s b p e, Base s ms -> At s b p e -> enough s b n -> n - (usedOf b - pos s) < Z.of_nat fuel ->
  exists s' b' c e', fill cut fuel s n = Some (s', c) /\ Base s' ms /\ At s' b' p e' /\ c = usedOf b' - pos s' /\
    (n <= c /\ e' = e \/ c < n /\ e' = true).
Proof.
  induction fuel as [|fuel IH]; intros s b p e B A En Hf; cbn [fill]; rewrite (a_b _ _ _ _ A); (destruct (Z.leb_spec n (usedOf b - pos s)) as [Hle|Hgt];
    [exists s, b, (usedOf b - pos s), e; split; [reflexivity|]; split; [exact B|]; split; [exact A|]; split; [reflexivity|left; auto]|]); [lia|].
  destruct En as [En|(Hlast & En)]; [lia|]. assert (Hnx : nth_error (chain s) (S (cb s)) = None) by (apply nth_error_None; lia). rewrite Hnx.
  assert (Hok : okb b) by (eapply Forall_forall; [exact (b_ok _ _ B)|eapply nth_error_In; exact (a_b _ _ _ _ A)]). destruct Hok as (K1 & K2 & K3). pose proof (a_pos _ _ _ _ A) as Hp.
  unfold readSome. set (k := Nat.min (Nat.min (Nat.max 1 (cut (calls s))) (Z.to_nat (bsize b - usedOf b))) (length (src s))). assert (Hk : (k <= length (src s))%nat) by lia. assert (Hk0 : k = 0%nat <-> src s = []) by (destruct (src s); cbn [length] in *; [split; [reflexivity|lia]|split; [lia|discriminate]]).
  assert (Hkr : Z.of_nat k <= bsize b - usedOf b) by lia. clearbody k.
  destruct (nth_split _ _ _ (a_b _ _ _ _ A)) as (a & c & Ec & La & Sk). assert (c = []) by (destruct c; [reflexivity|]; rewrite Ec, app_length in Hlast; cbn [length] in Hlast; lia). clear Sk. subst c.
  set (nb := mkb (bitems b ++ firstn k (src s)) (bsize b) (boff b)). assert (Un : usedOf nb = usedOf b + Z.of_nat k) by (unfold usedOf, nb; cbn [bitems]; rewrite zlen_app, zlen_firstn by exact Hk; reflexivity).
  assert (Eu : upd (chain s) (cb s) nb = a ++ [nb]) by (rewrite Ec, upd_app_r by lia; replace (cb s - length a)%nat with 0%nat by lia; reflexivity). rewrite zlen_firstn by exact Hk.
  assert (B' : forall eo, Base (mki (upd (chain s) (cb s) nb) (cb s) (pos s) (lim s + Z.of_nat k) eo (gone s) (marks s) (skipn k (src s)) (S (calls s))) ms).
  { intros eo. destruct (b_src _ _ B) as (pre & E & L). constructor; cbn [chain src marks].
    - exists pre. rewrite Eu, flat_app, flat_cons. unfold nb at 1. cbn [bitems]. split.
      + rewrite Ec, flat_app, flat_cons in E. rewrite <- !app_assoc in E |- *. change (flat []) with (@nil Z) in *. cbn [app] in *. rewrite <- app_assoc, firstn_skipn. exact E.
      + rewrite Ec in L. apply linked_app in L. destruct L as (L1 & L2 & _). apply linked_app. split; [exact L1|]. split; [exact L2|exact I].
    - rewrite Eu. pose proof (b_ok _ _ B) as Ok. rewrite Ec in Ok. apply Forall_app in Ok. apply Forall_app. split; [apply Ok|]. constructor; [|constructor]. split; [exact K1|]. split; [lia|exact K3].
    - eapply marks_grow; [|exact (b_marks _ _ B)]. intros i x Hx. rewrite nth_upd. destruct (Nat.eqb_spec (cb s) i) as [<-|Ne]; cbn [andb].
      + rewrite (a_b _ _ _ _ A) in Hx. injection Hx as <-. replace (cb s <? length (chain s))%nat with true by lia. exists nb. split; [reflexivity|]. split; [reflexivity|lia].
      + exists x. split; [exact Hx|]. split; [reflexivity|lia].
    - intros i x Hx Hi. rewrite upd_length in Hi. rewrite nth_upd_ne in Hx by lia. exact (b_full _ _ B _ _ Hx Hi). }
  destruct (Nat.eqb_spec k 0) as [Ek|Nk].
  - apply Hk0 in Ek as Es. eexists _, nb, _, true. split; [reflexivity|]. split; [apply B'|]. assert (Un0 : usedOf nb = usedOf b) by lia. split; [|split].
    + constructor; cbn [setEof gone chain cb pos lim eof src]; [exact (a_gone _ _ _ _ A)|apply nth_upd_eq; lia|lia|rewrite (a_lim _ _ _ _ A); lia|exact (a_p _ _ _ _ A)|reflexivity|]. intros _. split; [rewrite Es; apply skipn_nil|rewrite upd_length; exact Hlast].
    + cbn [setEof pos]. lia.
    + right. split; [lia|reflexivity].
  - assert (He : e = false). { destruct e; [|reflexivity]. destruct (a_end _ _ _ _ A eq_refl) as (Hs & _). apply Hk0 in Hs. contradiction. } subst e.
    set (s1 := mki (upd (chain s) (cb s) nb) (cb s) (pos s) (lim s + Z.of_nat k) (eof s) (gone s) (marks s) (skipn k (src s)) (S (calls s))).
    destruct (IH s1 nb p false) as (s' & b' & c & e' & R1 & R2 & R3 & R4 & R5).
    + apply B'.
    + constructor; cbn [s1 gone chain cb pos lim eof src]; [exact (a_gone _ _ _ _ A)|apply nth_upd_eq; lia|lia|rewrite (a_lim _ _ _ _ A); lia|exact (a_p _ _ _ _ A)|exact (a_eof _ _ _ _ A)|discriminate].
    + right. cbn [s1 cb chain pos]. rewrite upd_length. split; [exact Hlast|cbn [nb bsize]; lia].
    + cbn [s1 pos]. lia.
    + exists s', b', c, e'. split; [exact R1|]. auto.
Qed.

Lemma rest_end : rest source (zlen source) = [].
Proof. unfold rest. apply skipn_all2. unfold zlen. lia. Qed.
Lemma Inv_left s u : Inv s u -> 0 <= at_ u <= zlen source.
Proof.
  intros (B & [(_ & b & A)|(_ & G)]).
  - destruct (offsets _ _ _ _ B (a_b _ _ _ _ A)) as (O1 & O2 & _). rewrite (a_p _ _ _ _ A). pose proof (a_pos _ _ _ _ A). lia.
  - rewrite (g_p _ _ _ G). pose proof (zlen_nonneg source). lia.
Qed.
Lemma Inv_view s u : Inv s u -> prefix (view s) (rest source (at_ u)) /\ zlen (view s) = lim s - pos s /\ (ended u = true -> view s = rest source (at_ u)) /\ eof s = ended u.
Proof.
  intros (B & [(_ & b & A)|(_ & G)]).
  - rewrite (view_len _ _ _ _ A), (a_lim _ _ _ _ A), (view_at _ _ _ _ A). pose proof (rest_at s _ _ b (pos s) B (a_b _ _ _ _ A) (a_pos _ _ _ _ A)) as R. rewrite <- (a_p _ _ _ _ A) in R. rewrite R. split; [eexists; reflexivity|]. split; [reflexivity|]. split; [|exact (a_eof _ _ _ _ A)].
    intros He. destruct (a_end _ _ _ _ A He) as (-> & L). rewrite L, skipn_all. cbn. rewrite app_nil_r. reflexivity.
  - rewrite (g_p _ _ _ G), rest_end. unfold view. rewrite (g_gone _ _ _ G), (g_lim _ _ _ G), (g_pos _ _ _ G), (g_eof _ _ _ G), (g_e _ _ _ G). split; [exists []; reflexivity|]. auto.
Qed.
Definition withEnd (u : user) (e : bool) : user := mku (at_ u) e (saved u) (closed u).
Definition moved (u : user) (n : Z) : user := mku (at_ u + n) (ended u) (saved u) (closed u).
Lemma moved_0 u : moved u 0 = u.
Proof. destruct u as [a b c d]. unfold moved. cbn. rewrite Z.add_0_r. reflexivity. Qed.
Lemma Inv_advance s u k : Inv s u -> 0 <= k <= zlen (view s) -> Inv (advance s k) (moved u k).
Proof.
  intros I Hk. destruct (Inv_view s u I) as (_ & Hv & _). rewrite Hv in Hk. destruct I as (B & C). split; [destruct B as [B1 B2 B3 B4]; constructor; assumption|]. destruct C as [(Hc & b & A)|(Hc & G)]; [left|right].
  - split; [exact Hc|]. exists b. pose proof (a_lim _ _ _ _ A). pose proof (a_pos _ _ _ _ A). constructor; cbn [advance setPos moved gone chain cb pos lim eof src at_ ended]; [exact (a_gone _ _ _ _ A)|exact (a_b _ _ _ _ A)|lia|exact (a_lim _ _ _ _ A)|rewrite (a_p _ _ _ _ A); lia|exact (a_eof _ _ _ _ A)|exact (a_end _ _ _ _ A)].
  - split; [exact Hc|]. pose proof (g_lim _ _ _ G). pose proof (g_pos _ _ _ G). constructor; cbn [advance setPos moved gone pos lim eof at_ ended]; [exact (g_gone _ _ _ G)|lia|exact (g_lim _ _ _ G)|exact (g_e _ _ _ G)|exact (g_eof _ _ _ G)|rewrite (g_p _ _ _ G); lia].
Qed.
Lemma tryMake_ok s u n : Inv s u -> okReq (at_ u) n -> exists s' c e', tryMake cut blk s n = Some (s', c) /\ Inv s' (withEnd u e') /\
  (n <= c <= zlen (view s') /\ e' = ended u \/ c = zlen (view s') /\ zlen (view s') < n /\ view s' = rest source (at_ u) /\ e' = true).
Proof.
  intros I Hn. assert (1 <= n) by apply Hn. destruct (Inv_view s u I) as (_ & Hv & _ & _). unfold tryMake. destruct (Z.ltb_spec (lim s - pos s) n) as [Hlt|Hge].
  - unfold tryMakeInternal. replace (n <=? 0) with false by lia. destruct I as (B & [(Hc & b & A)|(Hc & G)]).
    + rewrite (a_gone _ _ _ _ A). destruct (findRoom_ok n (saved u) _ Hn (S (length (chain s))) s b _ B A ltac:(lia)) as (s1 & b1 & E1 & B1 & A1 & En). rewrite E1, (a_b _ _ _ _ A1).
      assert (Hok : okb b1) by (eapply Forall_forall; [exact (b_ok _ _ B1)|eapply nth_error_In; exact (a_b _ _ _ _ A1)]). destruct Hok as (K1 & K2 & K3).
      replace (n <=? bsize b1 - pos s1) with true by (destruct En as [En|(_ & En)]; lia). pose proof (a_pos _ _ _ _ A1).
      destruct (fill_ok n (saved u) (S (Z.to_nat n)) s1 b1 _ _ B1 A1 En ltac:(lia)) as (s2 & b2 & c & e' & E2 & B2 & A2 & Ec & D). exists s2, c, e'. split; [exact E2|].
      assert (I2 : Inv s2 (withEnd u e')) by (split; [exact B2|left; split; [exact Hc|exists b2; exact A2]]). split; [exact I2|]. rewrite (view_len _ _ _ _ A2), <- Ec. destruct D as [(D & ->)|(D & ->)]; [left; split; [lia|reflexivity]|right]. destruct (Inv_view _ _ I2) as (_ & _ & Hvr & _). split; [reflexivity|]. split; [exact D|]. split; [apply Hvr; reflexivity|reflexivity].
    + rewrite (g_gone _ _ _ G), (g_eof _ _ _ G). exists s, 0, true. split; [reflexivity|]. split; [split; [exact B|right; split; [exact Hc|]]|].
      * destruct G as [G1 G2 G3 G4 G5 G6]. constructor; cbn [withEnd at_ ended]; auto.
      * right. unfold view. rewrite (g_gone _ _ _ G), (g_p _ _ _ G), rest_end. change (zlen (@nil Z)) with 0. split; [reflexivity|]. split; [lia|auto].
  - exists s, n, (ended u). split; [reflexivity|]. split; [destruct u; exact I|]. left. split; [lia|reflexivity].
Qed.

Lemma prefix_firstn v (r : list Z) k : prefix v r -> (k <= length v)%nat -> firstn k r = firstn k v.
Proof. intros (c & ->) H. rewrite firstn_app. replace (k - length v)%nat with 0%nat by lia. cbn [firstn]. apply app_nil_r. Qed.
Lemma rest_moved p k : 0 <= p -> 0 <= k -> rest source (p + k) = skipn (Z.to_nat k) (rest source p).
Proof. intros Hp Hk. unfold rest. rewrite skipn_skipn. f_equal. lia. Qed.
Lemma rest_len p : 0 <= p <= zlen source -> zlen (rest source p) = zlen source - p.
Proof. intros H. unfold rest. rewrite zlen_skipn by lia. lia. Qed.
Lemma rest_nil p : 0 <= p <= zlen source -> rest source p = [] -> p = zlen source.
Proof. intros H E. pose proof (rest_len p H) as L. rewrite E in L. change (zlen (@nil Z)) with 0 in L. lia. Qed.
Lemma prefix_len (a b : list Z) : prefix a b -> zlen a <= zlen b.
Proof. intros (c & ->). rewrite zlen_app. pose proof (zlen_nonneg c). lia. Qed.
Lemma one_ok p : okReq p 1.
Proof. split; [lia|]. pose proof (Z.mod_pos_bound p blk ltac:(lia)). lia. Qed.
Lemma skipn_firstn_app {A} (l : list A) k n : firstn (k + n) l = firstn k l ++ firstn n (skipn k l).
Proof.
  revert l. induction k as [|k IH]; intros l; [reflexivity|]. destruct l as [|x l]; cbn [firstn skipn Nat.add app]; [destruct n; reflexivity|]. rewrite IH. reflexivity.
Qed.

Definition finished (u : user) : user := mku (zlen source) true (saved u) (closed u).
Lemma ended_at u : 0 <= at_ u <= zlen source -> rest source (at_ u) = [] -> withEnd u true = finished u.
Proof. intros H E. unfold withEnd, finished. rewrite (rest_nil _ H E). reflexivity. Qed.

Lemma readLoop_ok : forall fuel s u n, Inv s u -> 0 <= n -> (Z.to_nat n <= fuel)%nat -> exists s' l ok u', readLoop cut blk fuel s n = Some (s', l, ok) /\ Inv s' u' /\
  (n <= zlen (rest source (at_ u)) /\ l = firstn (Z.to_nat n) (rest source (at_ u)) /\ ok = true /\ u' = moved u n \/
   zlen (rest source (at_ u)) < n /\ l = rest source (at_ u) ++ repeat 0 (Z.to_nat n - length (rest source (at_ u))) /\ ok = false /\ u' = finished u).
Proof.
  induction fuel as [|fuel IH]; intros s u n I Hn Hf; cbn [readLoop].
  - replace n with 0 by lia. cbn [Z.eqb]. exists s, [], true, u. split; [reflexivity|]. split; [exact I|]. left. pose proof (zlen_nonneg (rest source (at_ u))). split; [lia|]. split; [reflexivity|]. split; [reflexivity|]. symmetry. apply moved_0.
  - destruct (Z.eqb_spec n 0) as [->|Nn].
    { exists s, [], true, u. split; [reflexivity|]. split; [exact I|]. left. pose proof (zlen_nonneg (rest source (at_ u))). split; [lia|]. split; [reflexivity|]. split; [reflexivity|]. symmetry. apply moved_0. }
    destruct (tryMake_ok s u 1 I (one_ok _)) as (s1 & c & e' & E & I1 & D). rewrite E. pose proof (Inv_left _ _ I) as Hl.
    destruct D as [(D & ->)|(D1 & D2 & D3 & ->)].
    + replace (c =? 0) with false by lia. set (k := Z.min n (zlen (view s1))). assert (Hk : 1 <= k) by lia. assert (Ew : withEnd u (ended u) = u) by (destruct u; reflexivity). rewrite Ew in I1.
      destruct (Inv_view _ _ I1) as (Hp & _). pose proof (Inv_advance s1 u k I1 ltac:(lia)) as I2. destruct (IH _ _ (n - k) I2 ltac:(lia) ltac:(lia)) as (s' & l & ok & u' & E2 & I3 & D2). rewrite E2. exists s', (firstn (Z.to_nat k) (view s1) ++ l), ok, u'. split; [reflexivity|]. split; [exact I3|].
      cbn [moved at_] in D2. rewrite rest_moved in D2 by lia. pose proof (prefix_len _ _ Hp) as Hpl. rewrite zlen_skipn in D2 by lia. rewrite <- (prefix_firstn (view s1) (rest source (at_ u)) (Z.to_nat k) Hp) by (unfold zlen in *; lia). set (R := rest source (at_ u)) in *.
      destruct D2 as [(G1 & -> & -> & ->)|(G1 & -> & -> & ->)]; [left|right].
      * split; [lia|]. split; [rewrite <- skipn_firstn_app; f_equal; lia|]. split; [reflexivity|]. unfold moved. cbn [at_ ended saved closed]. f_equal. lia.
      * split; [lia|]. split; [|split; [reflexivity|reflexivity]]. rewrite app_assoc, firstn_skipn, skipn_length. do 2 f_equal. unfold zlen in *. lia.
    + assert (Hv : view s1 = []) by (destruct (view s1); [reflexivity|exfalso; unfold zlen in D2; cbn [length] in D2; lia]). rewrite Hv in D1, D3. change (zlen (@nil Z)) with 0 in D1. rewrite D1. cbn [Z.eqb]. rewrite <- D3. change (zlen (@nil Z)) with 0. exists s1, (repeat 0 (Z.to_nat n)), false, (finished u). split; [reflexivity|]. split; [rewrite <- (ended_at u) by auto; exact I1|]. right. split; [lia|]. split; [cbn [app length]; f_equal; lia|auto].
Qed.
Lemma skipLoop_ok : forall fuel s u n, Inv s u -> 0 <= n -> (Z.to_nat n <= fuel)%nat -> exists s' ok u', skipLoop cut blk fuel s n = Some (s', ok) /\ Inv s' u' /\
  (n <= zlen (rest source (at_ u)) /\ ok = true /\ u' = moved u n \/ zlen (rest source (at_ u)) < n /\ ok = false /\ u' = finished u).
Proof.
  induction fuel as [|fuel IH]; intros s u n I Hn Hf; cbn [skipLoop].
  - replace n with 0 by lia. cbn [Z.eqb]. exists s, true, u. split; [reflexivity|]. split; [exact I|]. left. pose proof (zlen_nonneg (rest source (at_ u))). split; [lia|]. split; [reflexivity|]. symmetry. apply moved_0.
  - destruct (Z.eqb_spec n 0) as [->|Nn].
    { exists s, true, u. split; [reflexivity|]. split; [exact I|]. left. pose proof (zlen_nonneg (rest source (at_ u))). split; [lia|]. split; [reflexivity|]. symmetry. apply moved_0. }
    destruct (tryMake_ok s u 1 I (one_ok _)) as (s1 & c & e' & E & I1 & D). rewrite E. pose proof (Inv_left _ _ I) as Hl.
    destruct D as [(D & ->)|(D1 & D2 & D3 & ->)].
    + replace (c =? 0) with false by lia. set (k := Z.min n (zlen (view s1))). assert (Hk : 1 <= k) by lia. assert (Ew : withEnd u (ended u) = u) by (destruct u; reflexivity). rewrite Ew in I1.
      destruct (Inv_view _ _ I1) as (Hp & _). pose proof (Inv_advance s1 u k I1 ltac:(lia)) as I2. destruct (IH _ _ (n - k) I2 ltac:(lia) ltac:(lia)) as (s' & ok & u' & E2 & I3 & D2). rewrite E2. exists s', ok, u'. split; [reflexivity|]. split; [exact I3|].
      cbn [moved at_] in D2. rewrite rest_moved in D2 by lia. pose proof (prefix_len _ _ Hp) as Hpl. rewrite zlen_skipn in D2 by lia.
      destruct D2 as [(G1 & -> & ->)|(G1 & -> & ->)]; [left|right]; (split; [lia|]); (split; [reflexivity|]); [|reflexivity]. unfold moved. cbn [at_ ended saved closed]. f_equal. lia.
    + assert (Hv : view s1 = []) by (destruct (view s1); [reflexivity|exfalso; unfold zlen in D2; cbn [length] in D2; lia]). rewrite Hv in D1, D3. change (zlen (@nil Z)) with 0 in D1. rewrite D1. cbn [Z.eqb]. rewrite <- D3. change (zlen (@nil Z)) with 0. exists s1, false, (finished u). split; [reflexivity|]. split; [rewrite <- (ended_at u) by auto; exact I1|]. right. split; [lia|auto].
Qed.

(** readRemainingContents. *)
Lemma readAll_ok : forall fuel s u, Inv s u -> (length (rest source (at_ u)) < fuel)%nat -> exists s', readAll cut blk fuel s = Some s' /\ Inv s' (finished u).
Proof.
  induction fuel as [|fuel IH]; intros s u I Hf; [lia|]. cbn [readAll]. destruct (tryMake_ok s u 1 I (one_ok _)) as (s1 & c & e' & E & I1 & D). rewrite E. pose proof (Inv_left _ _ I) as Hl.
  destruct D as [(D & ->)|(D1 & D2 & D3 & ->)].
  - replace (c =? 0) with false by lia. assert (Ew : withEnd u (ended u) = u) by (destruct u; reflexivity). rewrite Ew in I1. destruct (Inv_view _ _ I1) as (Hp & Hv & _). pose proof (Inv_advance s1 u (zlen (view s1)) I1 ltac:(lia)) as I2.
    pose proof (zlen_nonneg (view s1)). pose proof (prefix_len _ _ Hp). replace (setPos s1 (cb s1) (lim s1) (lim s1)) with (advance s1 (zlen (view s1))) by (unfold advance; f_equal; lia). destruct (IH _ _ I2) as (s' & E2 & I3); [cbn [moved at_]; rewrite rest_moved, skipn_length by lia; unfold zlen in *; lia|]. exists s'. split; [exact E2|exact I3].
  - assert (Hv : view s1 = []) by (destruct (view s1); [reflexivity|exfalso; unfold zlen in D2; cbn [length] in D2; lia]). rewrite Hv in D1, D3. change (zlen (@nil Z)) with 0 in D1. rewrite D1. cbn [Z.eqb]. exists s1. split; [reflexivity|]. rewrite <- (ended_at u) by auto. exact I1.
Qed.
Lemma views_ok s ms : Base s ms -> forall fuel i b q, nth_error (chain s) i = Some b -> 0 <= q <= usedOf b -> (length (chain s) - i < fuel)%nat ->
  exists vs, views fuel (chain s) (Some (i, q)) None = Some vs /\ concat vs = skipn (Z.to_nat q) (bitems b) ++ flat (skipn (S i) (chain s)).
Proof.
  intros B. induction fuel as [|fuel IH]; intros i b q Hb Hq Hf; [lia|]. cbn [views]. rewrite Hb.
  assert (Ev : firstn (Z.to_nat (usedOf b - q)) (skipn (Z.to_nat q) (bitems b)) = skipn (Z.to_nat q) (bitems b)) by (apply firstn_all2; rewrite skipn_length; unfold usedOf, zlen in *; lia). rewrite Ev.
  assert (Hi : (i < length (chain s))%nat) by (apply nth_error_Some; congruence).
  destruct (offsets s ms i b B Hb) as (O1 & O2 & O3). assert (Hok : okb b) by (eapply Forall_forall; [exact (b_ok _ _ B)|eapply nth_error_In; exact Hb]). destruct Hok as (K1 & K2 & K3).
  destruct (nth_error (chain s) (S i)) as [nb|] eqn:En.
  - rewrite (O3 nb eq_refl). replace (boff b + usedOf b - boff b) with (usedOf b) by lia. unfold toU32. replace ((0 <=? usedOf b) && (usedOf b <? 2 ^ 32)) with true by lia. rewrite Z.sub_diag. pose proof (zlen_nonneg (bitems nb)) as Hz. fold (usedOf nb) in Hz. replace ((usedOf b <=? usedOf b) && (0 <=? usedOf nb)) with true by lia.
    destruct (IH (S i) nb 0 En ltac:(lia) ltac:(lia)) as (vs & -> & Ec). eexists. split; [reflexivity|]. cbn [concat]. rewrite Ec. f_equal. change (skipn (Z.to_nat 0) (bitems nb)) with (bitems nb). destruct (nth_split _ _ _ En) as (a & c & Ech & La & Sk). rewrite Sk, <- flat_cons. f_equal. rewrite Ech, <- La, skipn_app, skipn_all, Nat.sub_diag. reflexivity.
  - destruct fuel as [|fuel]; [lia|]. cbn [views]. eexists. split; [reflexivity|]. cbn [concat]. apply nth_error_None in En. rewrite (skipn_all2 (n := S i)) by lia. reflexivity.
Qed.

Lemma Inv_marks s u m ms : Inv s u -> Forall2 (markOk (chain s)) m ms -> Inv (setMarks s m) (mku (at_ u) (ended u) ms (closed u)).
Proof.
  intros (B & C) F. split.
  - destruct B as [B1 B2 B3 B4]. constructor; assumption.
  - destruct C as [(Hc & b & A)|(Hc & G)]; [left; split; [exact Hc|]; exists b; destruct A; constructor; assumption|right; split; [exact Hc|]; destruct G; constructor; assumption].
Qed.
Lemma upd_marks ch l ms k : Forall2 (markOk ch) l ms -> Forall2 (markOk ch) (upd l k None) (upd ms k None).
Proof. intros F. revert k. induction F as [|m p l ms H F IH]; intros k; [constructor|]. destruct k as [|k]; cbn [upd]; constructor; [exact I|exact F|exact H|apply IH]. Qed.
Lemma marks_nth ch l ms : Forall2 (markOk ch) l ms -> forall k p, nth_error ms k = Some (Some p) -> exists i q b, nth_error l k = Some (Some (i, q)) /\ nth_error ch i = Some b /\ 0 <= q <= usedOf b /\ p = boff b + q.
Proof.
  intros F. induction F as [|m x l ms H F IH]; intros k p Hk; [destruct k; discriminate|]. destruct k as [|k]; cbn [nth_error] in *; [|apply IH; exact Hk]. injection Hk as ->. destruct m as [(i, q)|]; cbn in H; [|contradiction]. destruct H as (b & H). exists i, q, b. tauto.
Qed.

Lemma step_ok s u o : Inv s u -> allowed blk source u o -> exists s' y u', step cut blk s o = Some (s', y) /\ answers source u o y u' /\ Inv s' u'.
Proof.
  intros I Ha. pose proof (Inv_left _ _ I) as Hl. destruct (Inv_view _ _ I) as (Vp & Vl & Ve & Eo). pose proof (prefix_len _ _ Vp) as Vpl. pose proof (zlen_nonneg (view s)) as Vn.
  destruct o as [|dst|n|n f| |k|k| | |]; cbn [step answers allowed] in *.
  - (* Byte *)
    unfold readByte. destruct (tryMake_ok s u 1 I (one_ok _)) as (s1 & c & e' & E & I1 & D). rewrite E. destruct D as [(D & ->)|(D1 & D2 & D3 & ->)].
    + replace (c =? 0) with false by lia. assert (Ew : withEnd u (ended u) = u) by (destruct u; reflexivity). rewrite Ew in I1. destruct (Inv_view _ _ I1) as (Hp & _). destruct (view s1) as [|b v] eqn:Ev; [change (zlen (@nil Z)) with 0 in D; lia|].
      destruct Hp as (r & ->). cbn [app]. exists (advance s1 1), (Num b), (moved u 1). split; [reflexivity|]. split; [auto|]. apply Inv_advance; [exact I1|]. rewrite Ev. lia.
    + assert (Hv : view s1 = []) by (destruct (view s1); [reflexivity|exfalso; unfold zlen in D2; cbn [length] in D2; lia]). rewrite Hv in D1, D3. change (zlen (@nil Z)) with 0 in D1. rewrite D1. cbn [Z.eqb]. rewrite <- D3. exists s1, (Num 0), (finished u). split; [reflexivity|]. split; [auto|]. rewrite <- (ended_at u) by auto. exact I1.
  - (* Read *)
    unfold read. rewrite <- Vl, Eo. destruct (Z.ltb_spec (zlen (view s)) (zlen dst)) as [Hlt|Hge].
    + destruct (ended u) eqn:Ee.
      * rewrite <- (Ve eq_refl). replace (zlen dst <=? zlen (view s)) with false by lia. exists s, (Bytes dst false), u. split; [reflexivity|]. auto.
      * destruct (readLoop_ok (length dst) s u (zlen dst) I (zlen_nonneg _) ltac:(unfold zlen; lia)) as (s' & l & ok & u' & E & I' & D). rewrite E. destruct D as [(D & -> & -> & ->)|(D & -> & -> & ->)].
        -- replace (zlen dst <=? zlen (rest source (at_ u))) with true by lia. eexists _, _, _. split; [reflexivity|]. split; [|exact I']. split; [|unfold moved; rewrite Ee; reflexivity]. unfold zlen. rewrite Nat2Z.id. reflexivity.
        -- replace (zlen dst <=? zlen (rest source (at_ u))) with false by lia. eexists _, _, _. split; [reflexivity|]. split; [|exact I']. split; [|reflexivity]. unfold zlen. rewrite Nat2Z.id. reflexivity.
    + replace (zlen dst <=? zlen (rest source (at_ u))) with true by lia. eexists _, _, _. split; [reflexivity|]. split; [split; [|reflexivity]|apply (Inv_advance s u (zlen dst) I); pose proof (zlen_nonneg dst); lia]. rewrite (prefix_firstn _ _ (length dst) Vp) by (unfold zlen in *; lia). reflexivity.
  - (* Skip *)
    unfold skip. rewrite <- Vl, Eo. destruct (Z.ltb_spec (zlen (view s)) n) as [Hlt|Hge].
    + destruct (ended u) eqn:Ee.
      * rewrite <- (Ve eq_refl). replace (n <=? zlen (view s)) with false by lia. exists s, (Flag false), u. split; [reflexivity|]. auto.
      * destruct (skipLoop_ok (Z.to_nat n) s u n I ltac:(lia) ltac:(lia)) as (s' & ok & u' & E & I' & D). rewrite E. destruct D as [(D & -> & ->)|(D & -> & ->)].
        -- replace (n <=? zlen (rest source (at_ u))) with true by lia. eexists _, _, _. split; [reflexivity|]. split; [|exact I']. split; [reflexivity|unfold moved; rewrite Ee; reflexivity].
        -- replace (n <=? zlen (rest source (at_ u))) with false by lia. eexists _, _, _. split; [reflexivity|]. split; [|exact I']. auto.
    + replace (n <=? zlen (rest source (at_ u))) with true by lia. eexists _, _, _. split; [reflexivity|]. split; [split; [reflexivity|reflexivity]|apply (Inv_advance s u n I); lia].
  - (* Take *)
    destruct (tryMake_ok s u n I Ha) as (s1 & c & e' & E & I1 & D). rewrite E. destruct (Inv_view _ _ I1) as (Hp & _). cbn [withEnd at_] in Hp. set (k := Nat.min (f (view s1)) (length (view s1))).
    eexists _, _, (moved (withEnd u e') (Z.of_nat k)). split; [reflexivity|]. split; [|apply Inv_advance; [exact I1|unfold zlen; lia]]. exists (view s1), c. split; [reflexivity|]. split; [exact Hp|].
    destruct D as [(D & ->)|(D1 & D2 & D3 & ->)]; [left; split; [exact D|reflexivity]|right]. split; [exact D1|]. split; [exact D2|]. split; [exact D3|reflexivity].
  - (* Save *)
    destruct I as (B & [(Hc & b & A)|(Hc & G)]); [|congruence]. unfold getBlockRef. rewrite (a_gone _ _ _ _ A), (a_b _ _ _ _ A). pose proof (a_pos _ _ _ _ A). replace ((0 <=? pos s) && (pos s <=? usedOf b)) with true by lia.
    eexists _, _, _. split; [reflexivity|]. split; [split; reflexivity|]. apply (Inv_marks s u); [split; [exact B|left; split; [exact Hc|exists b; exact A]]|]. apply Forall2_app; [exact (b_marks _ _ B)|]. constructor; [|constructor]. exists b. split; [exact (a_b _ _ _ _ A)|]. split; [lia|exact (a_p _ _ _ _ A)].
  - (* Rewind *)
    destruct Ha as (p & Hp). destruct I as (B & _). destruct (marks_nth _ _ _ (b_marks _ _ B) k p Hp) as (i & q & b & Hm & Hb & Hq & ->). rewrite Hm. unfold rewind. cbn [fst snd]. rewrite Hb. replace ((0 <=? q) && (q <=? usedOf b)) with true by lia.
    eexists _, _, _. split; [reflexivity|]. split; [exists (boff b + q); split; [exact Hp|split; reflexivity]|]. split; [destruct B as [B1 B2 B3 B4]; constructor; assumption|]. left. split; [reflexivity|]. exists b. constructor; cbn [gone chain cb pos lim eof src at_ ended]; try reflexivity; [exact Hb|exact Hq|discriminate].
  - (* Drop *)
    eexists _, _, _. split; [reflexivity|]. split; [split; reflexivity|]. apply (Inv_marks s u); [exact I|]. apply upd_marks. exact (b_marks _ _ (proj1 I)).
  - (* SeekPos *)
    destruct I as (B & [(Hc & b & A)|(Hc & G)]); [|congruence]. unfold getSeekPos. rewrite (a_gone _ _ _ _ A), (a_b _ _ _ _ A), <- (a_p _ _ _ _ A). unfold u64. rewrite Z.mod_small by lia. eexists _, _, _. split; [reflexivity|]. split; [split; reflexivity|]. split; [exact B|left; split; [exact Hc|exists b; exact A]].
  - (* AtEOF *)
    rewrite Eo. eexists _, _, _. split; [reflexivity|]. split; [split; reflexivity|exact I].
  - (* Rest *)
    destruct Ha as (Hc & Hr). assert (I' := I). destruct I as (B & [(_ & b & A)|(Hc' & G)]); [|congruence]. unfold readRemaining, getBlockRef. rewrite (a_gone _ _ _ _ A), (a_b _ _ _ _ A). pose proof (a_pos _ _ _ _ A). replace ((0 <=? pos s) && (pos s <=? usedOf b)) with true by lia.
    set (s0 := setMarks s (Some (cb s, pos s) :: marks s)). set (u0 := mku (at_ u) (ended u) (Some (at_ u) :: saved u) (closed u)).
    assert (I0 : Inv s0 u0). { apply (Inv_marks s u); [exact I'|]. constructor; [|exact (b_marks _ _ B)]. exists b. split; [exact (a_b _ _ _ _ A)|]. split; [lia|exact (a_p _ _ _ _ A)]. }
    match goal with |- context [readAll cut blk ?f _] => destruct (readAll_ok f s0 u0 I0) as (s1 & E1 & I1) end.
    { cbn [u0 at_]. rewrite (a_p _ _ _ _ A), (rest_at s _ _ b (pos s) B (a_b _ _ _ _ A) (a_pos _ _ _ _ A)), !app_length. fold (flat (chain s)). destruct (nth_split _ _ _ (a_b _ _ _ _ A)) as (a & c & Ec & La & Sk). rewrite Sk, Ec, flat_app, flat_cons, !app_length, skipn_length. lia. }
    rewrite E1. destruct (Inv_view _ _ I1) as (_ & _ & _ & Eo1). cbn [finished ended] in Eo1. rewrite Eo1. destruct I1 as (B1 & [(_ & b1 & A1)|(Hc1 & _)]); [|cbn in Hc1; congruence]. pose proof (b_marks _ _ B1) as F. cbn [finished u0 saved] in F. inversion F as [|m p l ms Hm F']; subst. destruct m as [(i, q)|]; [|contradiction]. destruct Hm as (bm & Hbm & Hq & Ep).
    unfold toString. assert (Hi : (i < length (chain s1))%nat) by (apply nth_error_Some; congruence). destruct (views_ok s1 _ B1 (S (length (chain s1))) i bm q Hbm Hq ltac:(lia)) as (vs & -> & Ecv).
    destruct (a_end _ _ _ _ A1 eq_refl) as (Hs & _). assert (Er : concat vs = rest source (at_ u)). { rewrite Ep, (rest_at s1 _ _ bm q B1 Hbm Hq), Hs, app_nil_r. exact Ecv. } rewrite Er. replace (zlen (rest source (at_ u)) <? 2 ^ 32) with true by lia.
    eexists _, _, _. split; [reflexivity|]. split; [split; reflexivity|]. split; [|right; split; [reflexivity|constructor; cbn [gone pos lim eof at_ ended]; reflexivity]]. destruct B1 as [B11 B12 B13 B14]. constructor; cbn [chain src marks saved]; [exact B11|exact B12|exact F'|exact B14].
Qed.

Lemma Inv_open : exists s, open blk source = Some s /\ Inv s start.
Proof.
  unfold open, createBlock. replace (100 <? blk) with true by lia. eexists. split; [reflexivity|]. split.
  - constructor; cbn [chain src marks saved start]; [|constructor; [|constructor]; unfold okb, usedOf; cbn [bsize bitems boff]; change (zlen (@nil Z)) with 0; split; [reflexivity|]; split; [lia|apply Z.mod_0_l; lia]|constructor|intros i b _ Hi; cbn [length] in Hi; lia]. exists []. split; [reflexivity|]. cbn. auto.
  - left. split; [reflexivity|]. eexists. constructor; cbn; try reflexivity; [unfold usedOf; cbn; lia|discriminate].
Qed.
Lemma allowed_dec u o : allowed blk source u o \/ ~ allowed blk source u o.
Proof.
  destruct o as [|dst|n|n f| |k|k| | |]; cbn [allowed]; try tauto; try (destruct (closed u); [right; intuition discriminate|]); try (left; reflexivity).
  - destruct (Z_lt_dec n 0); [right; lia|]. destruct (Z_lt_dec n (2 ^ 32)); [left; lia|right; lia].
  - destruct (Z_le_dec 1 n); [|right; tauto]. destruct (Z_le_dec (at_ u mod blk + n) blk); [left; auto|right; tauto].
  - destruct (nth_error (saved u) k) as [[p|]|]; [left; exists p; reflexivity|right|right]; intros (p & H); discriminate.
  - destruct (Z_lt_dec (zlen (rest source (at_ u))) (2 ^ 32)); [left; auto|right; tauto].
Qed.
Lemma run_right os : forall s u, Inv s u -> right blk source u os (option_map snd (run cut blk s os)).
Proof.
  induction os as [|o os IH]; intros s u I; cbn [run]; [constructor|]. destruct (allowed_dec u o) as [Ha|Ha]; [|apply right_outside; exact Ha]. destruct (step_ok s u o I Ha) as (s' & y & u' & E & An & I'). rewrite E. pose proof (right_call blk source u o os y u' _ Ha An (IH s' u' I')) as R. destruct (run cut blk s' os) as [(s2, ys)|]; exact R.
Qed.
Theorem uses_right os : right blk source start os (uses cut blk source os).
Proof.
  destruct Inv_open as (s & E & I). unfold uses. rewrite E. pose proof (run_right os s start I) as R. destruct (run cut blk s os) as [(s', ys)|]; exact R.
Qed.
End Proofs.

(* ---- streams on a view ---- *)
Section Views.
Context (data : list Z).
Hypothesis Hdata : zlen data < 2 ^ 32.
Definition VInv (s : vstream) (p : Z) (e : bool) (ms : list Z) : Prop :=
  vdata s = data /\ vpos s = p /\ veof s = e /\ vmarks s = ms /\ 0 <= p <= zlen data /\ Forall (fun q => 0 <= q <= zlen data) ms.
Lemma vleft s p e ms : VInv s p e ms -> vview s = rest data p /\ vavail s = zlen (rest data p) /\ zlen (rest data p) = zlen data - p.
Proof. intros (E1 & E2 & _ & _ & H & _). unfold vview, vavail, rest. rewrite E1, E2, zlen_skipn by lia. split; [reflexivity|]. lia. Qed.
Lemma vstep_ok s p e ms o y p' e' ms' : VInv s p e ms -> vanswer data p e ms o = Some (y, p', e', ms') -> exists s', vstep s o = Some (s', y) /\ VInv s' p' e' ms'.
Proof.
  intros V Ha. destruct (vleft _ _ _ _ V) as (L1 & L2 & L3). assert (V' := V). destruct V' as (E1 & E2 & E3 & E4 & Hp & Hm). pose proof (zlen_nonneg (rest data p)) as Ln.
  assert (Mv : forall k, 0 <= k <= zlen (rest data p) -> VInv (vmove s k) (p + k) e ms) by (intros k Hk; unfold VInv, vmove; cbn [vdata vpos veof vmarks]; repeat split; try assumption; lia).
  assert (Tm : forall n, 1 <= n -> vtryMake s n = Some (mkv data p (e || ((zlen (rest data p) <? n) && (zlen (rest data p) =? 0))) ms, Z.min n (zlen (rest data p)))).
  { intros n Hn. unfold vtryMake. rewrite L2, E1, E2, E3, E4. replace (n <=? 0) with false by lia. destruct (Z.ltb_spec (zlen (rest data p)) n); cbn [andb].
    - destruct (zlen (rest data p) =? 0); [rewrite orb_true_r|rewrite orb_false_r]; do 2 f_equal; lia.
    - rewrite orb_false_r. replace (Z.min n (zlen (rest data p))) with n by lia. destruct s as [a b c d]. cbn in *. subst. reflexivity. }
  assert (Se : s = mkv data p e ms) by (destruct s as [a b c d]; cbn in *; subst; reflexivity).
  destruct o as [|dst|n|n f| |k|k| |]; cbn [vstep vanswer] in *.
  - rewrite (Tm 1) by lia. destruct (rest data p) as [|b r] eqn:Er.
    + change (zlen (@nil Z)) with 0. cbn [Z.min Z.compare Z.eqb andb Z.ltb]. rewrite orb_true_r. inversion Ha; subst. eexists. split; [reflexivity|]. unfold VInv. cbn. repeat split; try assumption; lia.
    + replace (zlen (b :: r) <? 1) with false by (unfold zlen; cbn [length]; lia). replace (Z.min 1 (zlen (b :: r)) =? 0) with false by (unfold zlen; cbn [length]; lia). cbn [andb]. rewrite orb_false_r, <- Se, L1. inversion Ha; subst. eexists. split; [reflexivity|]. apply Mv. unfold zlen. cbn [length]. lia.
  - rewrite L2, E3. destruct (Z.leb_spec (zlen dst) (zlen (rest data p))) as [Hle|Hgt].
    + replace (zlen (rest data p) <? zlen dst) with false by lia. rewrite L1. inversion Ha; subst. eexists. split; [reflexivity|]. apply Mv. pose proof (zlen_nonneg dst). lia.
    + replace (zlen (rest data p) <? zlen dst) with true by lia. destruct e; [inversion Ha; subst; eexists; split; [reflexivity|exact V]|]. inversion Ha; subst y p' e' ms'; clear Ha.
      cbn [vreadLoop]. replace (zlen dst =? 0) with false by lia. rewrite (Tm 1) by lia. cbn [orb]. destruct (rest data p) as [|b r] eqn:Er.
      * change (zlen (@nil Z)) with 0. cbn [Z.ltb Z.compare Z.eqb andb Z.min app length]. rewrite Nat.sub_0_r. unfold zlen. rewrite Nat2Z.id. eexists. split; [reflexivity|]. unfold VInv. cbn. repeat split; try assumption; lia.
      * rewrite <- Er in *. assert (1 <= zlen (rest data p)) by (rewrite Er; unfold zlen; cbn [length]; lia). replace (zlen (rest data p) <? 1) with false by lia. cbn [andb]. replace (Z.min 1 (zlen (rest data p)) =? 0) with false by lia.
        rewrite <- Se, L1, L2. replace (Z.min (zlen dst) (zlen (rest data p))) with (zlen (rest data p)) by lia. specialize (Mv (zlen (rest data p)) ltac:(lia)). destruct (length dst) as [|m] eqn:Em; [unfold zlen in *; lia|]. cbn [vreadLoop]. replace (zlen dst - zlen (rest data p) =? 0) with false by lia.
        unfold vtryMake. destruct (vleft _ _ _ _ Mv) as (_ & M2 & M3). rewrite M2, M3. replace (zlen data - (p + zlen (rest data p))) with 0 by lia. cbn [Z.ltb Z.compare Z.leb Z.eqb]. unfold vmove at 1 2 3. cbn [vdata vpos vmarks].
        eexists. split; [do 3 f_equal; f_equal; [|f_equal; unfold zlen; lia]; apply firstn_all2; unfold zlen; lia|]. unfold VInv. cbn. rewrite E1, E2, E4. repeat split; try assumption; lia.
  - destruct ((0 <=? n) && (n <? 2 ^ 32)) eqn:En; [|discriminate]. rewrite L2, E3. destruct (Z.leb_spec n (zlen (rest data p))) as [Hle|Hgt].
    + replace (zlen (rest data p) <? n) with false by lia. inversion Ha; subst. eexists. split; [reflexivity|]. apply Mv. lia.
    + replace (zlen (rest data p) <? n) with true by lia. destruct e; [inversion Ha; subst; eexists; split; [reflexivity|exact V]|]. inversion Ha; subst y p' e' ms'; clear Ha.
      cbn [vskipLoop]. replace (n =? 0) with false by lia. rewrite (Tm 1) by lia. cbn [orb]. destruct (rest data p) as [|b r] eqn:Er.
      * change (zlen (@nil Z)) with 0. cbn [Z.ltb Z.compare Z.eqb andb Z.min]. eexists. split; [reflexivity|]. unfold VInv. cbn. repeat split; try assumption; lia.
      * rewrite <- Er in *. assert (1 <= zlen (rest data p)) by (rewrite Er; unfold zlen; cbn [length]; lia). replace (zlen (rest data p) <? 1) with false by lia. cbn [andb]. replace (Z.min 1 (zlen (rest data p)) =? 0) with false by lia.
        rewrite <- Se, L2. replace (Z.min n (zlen (rest data p))) with (zlen (rest data p)) by lia. specialize (Mv (zlen (rest data p)) ltac:(lia)). destruct (Z.to_nat n) as [|m] eqn:Em; [lia|]. cbn [vskipLoop]. replace (n - zlen (rest data p) =? 0) with false by lia.
        unfold vtryMake. destruct (vleft _ _ _ _ Mv) as (_ & M2 & M3). rewrite M2, M3. replace (zlen data - (p + zlen (rest data p))) with 0 by lia. cbn [Z.ltb Z.compare Z.leb Z.eqb]. unfold vmove at 1 2 3. cbn [vdata vpos vmarks].
        eexists. split; [reflexivity|]. unfold VInv. cbn. rewrite E1, E2, E4. repeat split; try assumption; lia.
  - destruct (Z.leb_spec 1 n) as [Hn|Hn]; [|discriminate]. rewrite (Tm n) by lia. inversion Ha; subst y p' e' ms'; clear Ha. unfold vview at 1 2 3 4. cbn [vdata vpos]. fold (rest data p).
    eexists. split; [reflexivity|]. unfold VInv, vmove. cbn [vdata vpos veof vmarks]. assert (Z.of_nat (Nat.min (f (rest data p)) (length (rest data p))) <= zlen (rest data p)) by (unfold zlen; lia). repeat split; try assumption; try lia. f_equal. lia.
  - inversion Ha; subst y p' e' ms'. rewrite E1, E2, E3, E4. eexists. split; [reflexivity|]. unfold VInv. cbn. repeat split; try lia. apply Forall_app. split; [exact Hm|]. repeat constructor; lia.
  - rewrite E4. destruct (nth_error ms k) as [q|] eqn:Ek; [|discriminate]. assert (Hq : 0 <= q <= zlen data) by (rewrite Forall_forall in Hm; apply Hm; eapply nth_error_In; exact Ek). destruct (Z.leb_spec q p); [|discriminate]. inversion Ha; subst y p' e' ms'. rewrite E1, E2, E3. unfold u64. rewrite Z.mod_small by lia. replace (p - q <=? zlen data) with true by lia. eexists. split; [reflexivity|]. unfold VInv. cbn. repeat split; try assumption; lia.
  - rewrite E4. destruct (nth_error ms k) as [q|] eqn:Ek; [|discriminate]. assert (Hq : 0 <= q <= zlen data) by (rewrite Forall_forall in Hm; apply Hm; eapply nth_error_In; exact Ek). destruct (Z.leb_spec q p); [|discriminate]. inversion Ha; subst y p' e' ms'. rewrite E1, E2. unfold u64. rewrite Z.mod_small by lia. replace (p - q <=? zlen data) with true by lia. eexists. split; [reflexivity|exact V].
  - inversion Ha; subst y p' e' ms'. rewrite E2. eexists. split; [reflexivity|exact V].
  - inversion Ha; subst y p' e' ms'. rewrite E3. eexists. split; [reflexivity|exact V].
Qed.
Lemma vrun_ok os : forall s p e ms ys, VInv s p e ms -> vanswers data p e ms os = Some ys -> vrun s os = Some ys.
Proof.
  induction os as [|o os IH]; intros s p e ms ys V Ha; cbn [vrun vanswers] in *; [exact Ha|]. destruct (vanswer data p e ms o) as [[[[y p'] e'] ms']|] eqn:E; [|discriminate]. destruct (vstep_ok _ _ _ _ _ _ _ _ _ V E) as (s' & -> & V'). destruct (vanswers data p' e' ms' os) as [ys'|] eqn:E2; [|discriminate]. rewrite (IH s' _ _ _ _ V' E2). exact Ha.
Qed.
Theorem usesView_ok os ys : vanswers data 0 false [] os = Some ys -> usesView data os = Some ys.
Proof. apply vrun_ok. unfold VInv. cbn. pose proof (zlen_nonneg data). repeat split; try lia. constructor. Qed.
End Views.

(* ---- requests that cross the end of a block ---- *)
Lemma cross_loses blk (source : list Z) p n : 100 < blk < 2 ^ 32 -> 0 < p < blk -> blk < p + n -> n <= blk -> blk <= zlen source ->
  let v := firstn (Z.to_nat blk) (skipn (Z.to_nat blk) source) in
  uses (fun _ => Z.to_nat blk) blk source [Skip p; Take n (fun _ => 0%nat)] = Some [Flag true; Chunk (zlen v) v 0].
Proof.
  intros Hb Hp Hc Hn Hs v. assert (Ev0 : v = firstn (Z.to_nat blk) (skipn (Z.to_nat blk) source)) by reflexivity. clearbody v. unfold uses, open, createBlock. replace (100 <? blk) with true by lia.
  set (s0 := mki [mkb [] blk 0] 0 0 0 false false [] source 0). remember (firstn (Z.to_nat blk) source) as a eqn:Ea. remember (skipn (Z.to_nat blk) source) as r eqn:Er0.
  assert (La : zlen a = blk) by (rewrite Ea; unfold zlen in *; rewrite firstn_length; lia).
  assert (E1 : tryMake (fun _ => Z.to_nat blk) blk s0 1 = Some (mki [mkb a blk 0] 0 0 blk false false [] r 1, blk)).
  { unfold tryMake, s0, tryMakeInternal. cbn [lim pos Z.sub Z.ltb Z.compare Z.leb gone chain length findRoom nth_error cb]. unfold usedOf. cbn [bitems bsize]. change (zlen (@nil Z)) with 0. cbn [Z.leb Z.compare Z.eqb andb Z.sub Z.opp Z.add]. rewrite Z.sub_0_r. replace (blk <? 1) with false by lia. cbn [nth_error chain cb bsize pos]. rewrite Z.sub_0_r. replace (1 <=? blk) with true by lia.
    change (S (Z.to_nat 1)) with 2%nat. cbn [fill nth_error chain cb]. unfold usedOf at 1 2. cbn [bitems pos]. change (zlen (@nil Z)) with 0. cbn [Z.leb Z.compare Z.sub Z.opp Z.add]. unfold readSome. cbn [calls src chain cb lim eof gone marks bsize boff upd bitems app pos]. unfold usedOf. cbn [bitems]. change (zlen (@nil Z)) with 0. rewrite Z.sub_0_r.
    replace (Nat.min (Nat.min (Nat.max 1 (Z.to_nat blk)) (Z.to_nat blk)) (length source)) with (Z.to_nat blk) by (unfold zlen in Hs; lia). rewrite <- Ea, <- Er0. replace (Z.to_nat blk =? 0)%nat with false by lia.
    cbn [nth_error chain cb]. unfold usedOf. cbn [bitems pos]. rewrite La. replace (1 <=? blk - 0) with true by lia. rewrite Z.sub_0_r. reflexivity. }
  cbn [run step]. unfold skip. change (lim s0 - pos s0) with 0. change (eof s0) with false. replace (0 <? p) with true by lia. destruct (Z.to_nat p) as [|k] eqn:Ek; [lia|]. cbn [skipLoop]. replace (p =? 0) with false by lia. rewrite E1. replace (blk =? 0) with false by lia.
  set (s1 := mki [mkb a blk 0] 0 0 blk false false [] r 1). assert (V1 : zlen (view s1) = blk) by (unfold view, s1; cbn [gone chain cb nth_error lim pos bitems Z.to_nat skipn]; rewrite firstn_all2; [exact La|unfold zlen in La; lia]). rewrite V1. replace (Z.min p blk) with p by lia. rewrite Z.sub_diag.
  assert (E2 : forall k s, skipLoop (fun _ => Z.to_nat blk) blk k s 0 = Some (s, true)) by (intros [|k'] s; reflexivity). rewrite E2. clear k Ek E2.
  set (s2 := advance s1 p).
  assert (E3 : findRoom blk 2 s2 n = Some (mki [mkb [] blk blk] 0 0 0 false false [] r 1)).
  { unfold s2, s1, advance, setPos. cbn [findRoom nth_error chain cb pos lim]. unfold usedOf. cbn [bitems bsize]. rewrite La. replace ((0 <=? 0 + p) && (0 + p <=? blk) && (blk =? blk)) with true by lia. replace (n <=? blk - (0 + p)) with false by lia. replace (blk - (0 + p) <? n) with true by lia.
    unfold appendWithRecycle, usedOf, onlyRef. cbn [marks forallb bsize boff bitems eof gone src calls]. rewrite La. replace (Z.max n blk) with blk by lia. rewrite Z.eqb_refl. cbn [andb]. unfold u64. rewrite Z.add_0_l, Z.mod_small by lia. reflexivity. }
  unfold tryMake. replace (lim s2 - pos s2) with (blk - p) by (unfold s2, s1; cbn; lia). replace (blk - p <? n) with true by lia. unfold tryMakeInternal. replace (n <=? 0) with false by lia. change (gone s2) with false. change (S (length (chain s2))) with 2%nat. rewrite E3. cbn [nth_error chain cb bsize pos]. replace (n <=? blk - 0) with true by lia.
  destruct (Z.to_nat n) as [|[|j]] eqn:En; [lia|lia|].
  assert (K1 : Nat.min (Nat.min (Nat.max 1 (Z.to_nat blk)) (Z.to_nat blk)) (length r) = length v) by (rewrite Ev0, firstn_length; lia).
  assert (K2 : firstn (length v) r = v) by (rewrite Ev0, firstn_length; destruct (Nat.min_spec (Z.to_nat blk) (length r)) as [(H1 & ->)|(H1 & ->)]; [reflexivity|rewrite firstn_all, firstn_all2 by lia; reflexivity]).
  assert (K3 : zlen v <= blk) by (rewrite Ev0; unfold zlen; rewrite firstn_length; lia).
  cbn [fill nth_error chain cb]. unfold usedOf at 1 2. cbn [bitems pos]. change (zlen (@nil Z)) with 0. replace (n <=? 0 - 0) with false by lia. unfold readSome at 1. cbn [calls src chain cb lim eof gone marks bsize boff upd bitems app pos]. cbv zeta. unfold usedOf. cbn [bitems]. change (zlen (@nil Z)) with 0. rewrite !Z.sub_0_r, !K1, !K2.
  assert (Vv : forall l2 c2 e, view (mki [mkb v blk blk] 0 0 (zlen v) e false [] l2 c2) = v) by (intros; unfold view; cbn [gone chain cb nth_error lim pos bitems Z.to_nat skipn]; apply firstn_all2; unfold zlen; lia).
  destruct (Nat.eqb_spec (length v) 0) as [E0|N0].
  - destruct v as [|x v']; [|discriminate]. cbn [setEof chain cb pos lim gone marks src calls]. change (zlen (@nil Z)) with 0 in *. specialize (Vv (skipn (length (@nil Z)) r) 2%nat true). cbn [Z.add]. cbv beta iota zeta. unfold setEof. cbn [chain cb pos lim gone marks src calls]. rewrite Vv. reflexivity.
  - cbn [nth_error chain cb bitems pos]. rewrite Z.sub_0_r. destruct (Z.leb_spec n (zlen v)) as [Hle|Hgt].
    + change (0 + zlen v) with (zlen v). cbv beta iota zeta. rewrite Vv. cbn [Nat.min]. reflexivity.
    + assert (Er : skipn (length v) r = []). { apply skipn_all2. unfold zlen in Hgt. rewrite <- K1. rewrite Ev0, firstn_length in Hgt. lia. } rewrite Er. cbn [fill nth_error chain cb bitems pos].
      unfold readSome. cbn [calls src chain cb lim eof gone marks bsize boff upd bitems app pos]. cbn [length]. rewrite Nat.min_0_r. cbn [firstn skipn Nat.eqb]. rewrite app_nil_r. change (zlen (@nil Z)) with 0. rewrite Z.add_0_r. change (0 + zlen v) with (zlen v). unfold setEof. cbn [chain cb pos lim gone marks src calls]. cbv beta iota zeta. rewrite Vv. reflexivity.
Qed.
