From Verif Require Import StringViewSpec StringViewModel TextEncodingSpec TextEncodingProofs.
From Coq Require Import ZifyBool ZifyNat.
Ltac Zify.zify_post_hook ::= Z.div_mod_to_equations.

Lemma zlen_app {A} (a b : list A) : zlen (a ++ b) = zlen a + zlen b.
Proof. unfold zlen. rewrite app_length. lia. Qed.
Lemma zlen_nonneg {A} (a : list A) : 0 <= zlen a.
Proof. unfold zlen. lia. Qed.

(** ** Slicing *)
Lemma sv_left_right_split s n : 0 <= n <= zlen s ->
  exists a b, sv_left s n = Some a /\ sv_subStr1 s n = Some b /\ s = a ++ b /\ zlen a = n.
Proof.
  intros Hn. unfold sv_left, sv_subStr1. replace (n <=? zlen s) with true by lia.
  eexists _, _. split; [reflexivity|]. split; [reflexivity|]. split.
  - symmetry. apply firstn_skipn.
  - unfold zlen in *. rewrite firstn_length. lia.
Qed.

Lemma sv_shortened_right_split s n : 0 <= n <= zlen s ->
  exists a b, sv_shortenedBy s n = Some a /\ sv_right s n = Some b /\ s = a ++ b /\ zlen b = n.
Proof.
  intros Hn. unfold sv_shortenedBy, sv_right. replace (n <=? zlen s) with true by lia.
  eexists _, _. split; [reflexivity|]. split; [reflexivity|]. split.
  - symmetry. apply firstn_skipn.
  - unfold zlen in *. rewrite skipn_length. lia.
Qed.

Lemma sv_slice_none s n : zlen s < n ->
  sv_left s n = None /\ sv_subStr1 s n = None /\ sv_shortenedBy s n = None /\ sv_right s n = None.
Proof.
  intros Hn. unfold sv_left, sv_subStr1, sv_shortenedBy, sv_right.
  replace (n <=? zlen s) with false by lia. auto.
Qed.

Lemma sv_back_ok s ofs : zlen s < 2 ^ 31 -> - 2 ^ 31 <= ofs < 2 ^ 31 ->
  sv_back s ofs = if (- zlen s <=? ofs) && (ofs <=? -1)
                  then nth_error s (Z.to_nat (zlen s + ofs)) else None.
Proof.
  intros Hs Ho. unfold sv_back, u32.
  destruct (Z.leb_spec ofs (-1)).
  - rewrite Z.mod_small by lia.
    replace (- ofs - 1 <? zlen s) with (- zlen s <=? ofs) by lia. rewrite andb_true_r. reflexivity.
  - rewrite andb_false_r.
    replace ((- ofs - 1) mod 2 ^ 32 <? zlen s) with false; [reflexivity|].
    change (2 ^ 32) with 4294967296 in *. change (2 ^ 31) with 2147483648 in *. lia.
Qed.

Lemma sv_subStr2_ok len start n : 0 <= len < 2 ^ 32 -> 0 <= start -> 0 <= n -> start + n < 2 ^ 32 ->
  sv_subStr2_range len start n = if start + n <=? len then Some (start, n) else None.
Proof.
  intros Hl Hs Hn Hb. unfold sv_subStr2_range, u32. rewrite Z.mod_small by lia.
  destruct (Z.leb_spec start len); [reflexivity|].
  replace (start + n <=? len) with false by lia. reflexivity.
Qed.

(** ** Search *)
Lemma find_from_spec f r i :
  (find_from f i r = -1 /\ (forall k, (k < length r)%nat -> f (nth k r 0) = false)) \/
  (exists k, (k < length r)%nat /\ find_from f i r = i + Z.of_nat k /\ f (nth k r 0) = true /\
     forall j, (j < k)%nat -> f (nth j r 0) = false).
Proof.
  revert i. induction r as [|c r IH]; intros i; cbn [find_from].
  - left. split; [reflexivity|]. intros k Hk. cbn in Hk. lia.
  - destruct (f c) eqn:E.
    + right. exists 0%nat. cbn. repeat split; try lia. assumption.
    + destruct (IH (i + 1)) as [[H1 H2]|(k & Hk & H1 & H2 & H3)].
      * left. split; [assumption|]. intros [|k] Hk; [assumption|]. apply H2. cbn in Hk. lia.
      * right. exists (S k). cbn [length nth]. repeat split; try lia; [assumption|].
        intros [|j] Hj; [assumption|]. apply H3. lia.
Qed.

Lemma nth_skipn_z (s : list Z) n k : nth k (skipn n s) 0 = nth (n + k) s 0.
Proof.
  revert s. induction n as [|n IH]; intros s; [reflexivity|].
  destruct s as [|c s]; [cbn; destruct k; reflexivity|]. cbn [skipn]. rewrite IH. reflexivity.
Qed.

Lemma sv_findByte_spec s f from : 0 <= from ->
  (sv_findByte s f from = -1 /\ forall j, from <= j < zlen s -> f (nth (Z.to_nat j) s 0) = false) \/
  first_at f s from (sv_findByte s f from).
Proof.
  intros Hf. unfold sv_findByte, first_at, zlen.
  destruct (find_from_spec f (skipn (Z.to_nat from) s) from) as [[H1 H2]|(k & Hk & H1 & H2 & H3)];
    rewrite skipn_length in *.
  - left. split; [assumption|]. intros j Hj.
    specialize (H2 (Z.to_nat (j - from)) ltac:(lia)). rewrite nth_skipn_z in H2.
    replace (Z.to_nat from + Z.to_nat (j - from))%nat with (Z.to_nat j) in H2 by lia. assumption.
  - right. rewrite H1. split; [lia|]. rewrite nth_skipn_z in H2. split.
    + replace (Z.to_nat (from + Z.of_nat k)) with (Z.to_nat from + k)%nat by lia. assumption.
    + intros j Hj. specialize (H3 (Z.to_nat (j - from)) ltac:(lia)). rewrite nth_skipn_z in H3.
      replace (Z.to_nat from + Z.to_nat (j - from))%nat with (Z.to_nat j) in H3 by lia. assumption.
Qed.

Lemma rfind_from_spec f s i : i < zlen s -> -1 <= i ->
  (rfind_from f i (rev (firstn (Z.to_nat (i + 1)) s)) = -1 /\
     forall j, 0 <= j <= i -> f (nth (Z.to_nat j) s 0) = false) \/
  last_at f s i (rfind_from f i (rev (firstn (Z.to_nat (i + 1)) s))).
Proof.
  intros Hi Hm. remember (Z.to_nat (i + 1)) as n eqn:En. revert i En Hi Hm.
  unfold last_at. induction n as [|n IH]; intros i En Hi Hm.
  - left. cbn. split; [reflexivity|]. lia.
  - assert (Hs : firstn (S n) s = firstn n s ++ [nth n s 0]).
    { clear -Hi En. unfold zlen in Hi. assert (Hl : (n < length s)%nat) by lia. clear En Hi.
      revert s Hl. induction n as [|n IH]; intros [|c s] Hl; cbn in Hl; try lia; [reflexivity|].
      cbn [firstn nth]. rewrite <- app_comm_cons. f_equal. apply IH. lia. }
    rewrite Hs, rev_app_distr. cbn [rev app rfind_from].
    replace n with (Z.to_nat i) by lia. destruct (f (nth (Z.to_nat i) s 0)) eqn:E.
    + right. split; [lia|]. split; [assumption|]. lia.
    + replace (Z.to_nat i) with n by lia.
      destruct (IH (i - 1) ltac:(lia) ltac:(lia) ltac:(lia)) as [[H1 H2]|[H1 [H2 H3]]].
      * left. split; [assumption|]. intros j Hj. destruct (Z.eq_dec j i) as [->|]; [assumption|].
        apply H2. lia.
      * right. split; [lia|]. split; [assumption|].
        intros j Hj. destruct (Z.eq_dec j i) as [->|]; [assumption|]. apply H3. lia.
Qed.

Lemma sv_rfindByte_spec s f p : 0 <= p < zlen s ->
  exists r, sv_rfindByte s f p = Some r /\
  ((r = -1 /\ forall j, 0 <= j <= p -> f (nth (Z.to_nat j) s 0) = false) \/ last_at f s p r).
Proof.
  intros Hp. unfold sv_rfindByte. replace (p <? zlen s) with true by lia.
  eexists. split; [reflexivity|]. apply rfind_from_spec; lia.
Qed.

Lemma sv_rfindByte_default_spec s f : zlen s < 2 ^ 31 ->
  exists r, sv_rfindByte_default s f = Some r /\
  ((r = -1 /\ forall j, 0 <= j < zlen s -> f (nth (Z.to_nat j) s 0) = false) \/
   last_at f s (zlen s - 1) r).
Proof.
  intros Hs. unfold sv_rfindByte_default. pose proof (zlen_nonneg s).
  replace (s32 (u32 (zlen s - 1))) with (zlen s - 1).
  2:{ unfold s32, to_signed, u32. cbv zeta. change (32 - 1) with 31. change (2 ^ 32) with 4294967296 in *.
      change (2 ^ 31) with 2147483648 in *. rewrite Z.mod_mod by lia.
      destruct (Z.ltb_spec ((zlen s - 1) mod 4294967296) 2147483648); lia. }
  unfold sv_rfindByte. replace (zlen s - 1 <? zlen s) with true by lia.
  eexists. split; [reflexivity|].
  destruct (rfind_from_spec f s (zlen s - 1) ltac:(lia) ltac:(lia)) as [[H1 H2]|H1].
  - left. split; [assumption|]. intros j Hj. apply H2. lia.
  - right. assumption.
Qed.

(** ** Prefix and suffix *)
Lemma bytes_eqb_eq a b : bytes_eqb a b = true <-> a = b.
Proof.
  revert b. induction a as [|x a IH]; intros [|y b]; cbn; try (split; congruence).
  rewrite andb_true_iff, Z.eqb_eq, IH. split; [intros [-> ->]; reflexivity|intros [= -> ->]; auto].
Qed.

Lemma sv_startsWith_iff s p : sv_startsWith s p = true <-> exists r, s = p ++ r.
Proof.
  unfold sv_startsWith. destruct (Nat.ltb_spec (length s) (length p)).
  - split; [discriminate|]. intros [r ->]. rewrite app_length in *. lia.
  - rewrite bytes_eqb_eq. split.
    + intros E. exists (skipn (length p) s). rewrite <- E at 1. symmetry. apply firstn_skipn.
    + intros [r ->]. rewrite firstn_app, Nat.sub_diag, firstn_all. cbn. apply app_nil_r.
Qed.

Lemma sv_endsWith_iff s p : sv_endsWith s p = true <-> exists r, s = r ++ p.
Proof.
  unfold sv_endsWith. destruct (Nat.ltb_spec (length s) (length p)).
  - split; [discriminate|]. intros [r ->]. rewrite app_length in *. lia.
  - rewrite bytes_eqb_eq. split.
    + intros E. exists (firstn (length s - length p) s). rewrite <- E at 2. symmetry. apply firstn_skipn.
    + intros [r ->]. rewrite app_length, skipn_app.
      replace (length r + length p - length p)%nat with (length r) by lia.
      rewrite skipn_all, Nat.sub_diag. reflexivity.
Qed.

(** ** Trimming *)
Lemma trim_left_spec f s : exists a, s = a ++ trim_left f s /\ Forall (fun c => f c = true) a /\
  (forall c r, trim_left f s = c :: r -> f c = false).
Proof.
  induction s as [|c s IH]; cbn [trim_left].
  - exists []. repeat split; [constructor|discriminate].
  - destruct (f c) eqn:E.
    + destruct IH as (a & H1 & H2 & H3). exists (c :: a). cbn. rewrite <- H1.
      repeat split; [constructor; assumption|assumption].
    + exists []. repeat split; [constructor|]. intros c' r [= <- <-]. assumption.
Qed.

Lemma trim_right_spec f s : exists b, s = rev (trim_left f (rev s)) ++ b /\ Forall (fun c => f c = true) b /\
  (forall c r, rev (trim_left f (rev s)) = r ++ [c] -> f c = false).
Proof.
  destruct (trim_left_spec f (rev s)) as (a & H1 & H2 & H3). exists (rev a).
  split; [|split].
  - rewrite <- rev_app_distr, <- H1. symmetry. apply rev_involutive.
  - rewrite Forall_forall in *. intros x Hx. apply H2, in_rev, Hx.
  - intros c r E. apply (f_equal (@rev Z)) in E. rewrite rev_involutive, rev_app_distr in E.
    cbn in E. eapply H3, E.
Qed.

Lemma sv_trim_spec f s : exists a b, s = a ++ sv_trim f true true s ++ b /\
  Forall (fun c => f c = true) a /\ Forall (fun c => f c = true) b /\
  (forall c r, sv_trim f true true s = c :: r -> f c = false) /\
  (forall c r, sv_trim f true true s = r ++ [c] -> f c = false).
Proof.
  unfold sv_trim. destruct (trim_left_spec f s) as (a & H1 & H2 & H3).
  destruct (trim_right_spec f (trim_left f s)) as (b & H4 & H5 & H6).
  exists a, b. rewrite <- H4. repeat split; try assumption.
  intros c r E. apply (H3 c (r ++ b)). rewrite H4, E. reflexivity.
Qed.

Lemma sv_ltrim_spec f s : exists a, s = a ++ sv_trim f true false s /\
  Forall (fun c => f c = true) a /\ (forall c r, sv_trim f true false s = c :: r -> f c = false).
Proof. apply trim_left_spec. Qed.
Lemma sv_rtrim_spec f s : exists b, s = sv_trim f false true s ++ b /\
  Forall (fun c => f c = true) b /\ (forall c r, sv_trim f false true s = r ++ [c] -> f c = false).
Proof. apply trim_right_spec. Qed.

(** ** Splitting and joining *)
Lemma split_loop_acc sep s st res : split_loop sep s st res = res ++ split_loop sep s st [].
Proof.
  revert st res. induction s as [|c s IH]; intros st res; cbn [split_loop].
  - destruct st; [reflexivity|]. rewrite app_nil_r. reflexivity.
  - destruct (c =? sep); destruct st as [w|].
    + rewrite (IH None (res ++ _)), (IH None ([] ++ _)). cbn [app]. rewrite <- app_assoc. reflexivity.
    + apply IH.
    + apply IH.
    + apply IH.
Qed.

Lemma split_loop_words sep s :
  words sep s (split_loop sep s None []) /\
  forall w, w <> [] -> ~ In sep w -> words sep (rev w ++ s) (split_loop sep s (Some w) []).
Proof.
  assert (Hrev : forall w : list Z, w <> [] -> rev w <> []).
  { intros w Hw E. apply Hw. rewrite <- (rev_involutive w), E. reflexivity. }
  induction s as [|c s [IH1 IH2]]; cbn [split_loop].
  - split; [constructor|]. intros w Hw Hn. rewrite app_nil_r. cbn. apply words_last; [auto|].
    rewrite <- in_rev. assumption.
  - destruct (Z.eqb_spec c sep) as [->|Hne].
    + split; [constructor; assumption|]. intros w Hw Hn.
      rewrite split_loop_acc. cbn [app]. apply words_cons; [auto| |assumption].
      rewrite <- in_rev. assumption.
    + split.
      * apply (IH2 [c]); [discriminate|]. intros [?|[]]. auto.
      * intros w Hw Hn. change (c :: s) with ([c] ++ s). rewrite app_assoc.
        change (rev w ++ [c]) with (rev (c :: w)). apply IH2; [discriminate|].
        intros [?|?]; auto.
Qed.

Lemma sv_splitByte_words sep s : words sep s (sv_splitByte sep s).
Proof. apply split_loop_words. Qed.

Lemma app_sep_inj sep (w w' s s' : list Z) : ~ In sep w -> ~ In sep w' ->
  w ++ sep :: s = w' ++ sep :: s' -> w = w' /\ s = s'.
Proof.
  revert w'. induction w as [|c w IH]; intros [|c' w'] H1 H2 E; cbn in *.
  - injection E as ->. auto.
  - injection E as <- _. exfalso. auto.
  - injection E as -> _. exfalso. auto.
  - injection E as -> E. destruct (IH w') as [-> ->]; auto.
Qed.

Lemma words_unique sep s ws ws' : words sep s ws -> words sep s ws' -> ws = ws'.
Proof.
  intros H. revert ws'. induction H as [|s ws H IH|w Hw Hn|w s ws Hw Hn H IH]; intros ws' H'.
  - inversion H' as [|s0 ? ? |w0 Hw0 ? |w0 s0]; subst; [reflexivity|congruence|].
    destruct w0; discriminate.
  - inversion H' as [|s0 ws0 H0 E|w0 Hw0 Hn0|w0 s0 ws0 Hw0 Hn0 H0 E]; subst.
    + apply IH. assumption.
    + exfalso. apply Hn0. left. reflexivity.
    + exfalso. destruct w0 as [|c w0]; [congruence|]. cbn in E. injection E as -> _.
      apply Hn0. left. reflexivity.
  - inversion H' as [E|s0 ws0 H0 E|w0 Hw0 Hn0 E|w0 s0 ws0 Hw0 Hn0 H0 E]; subst.
    + congruence.
    + exfalso. apply Hn. left. reflexivity.
    + reflexivity.
    + exfalso. apply Hn. apply in_or_app. right. left. reflexivity.
  - inversion H' as [E|s0 ws0 H0 E|w0 Hw0 Hn0 E|w0 s0 ws0 Hw0 Hn0 H0 E]; subst.
    + destruct w; discriminate.
    + exfalso. destruct w as [|c w]; [congruence|]. cbn in E. injection E as <- _.
      apply Hn. left. reflexivity.
    + exfalso. apply Hn0. apply in_or_app. right. left. reflexivity.
    + apply app_sep_inj in E; [|assumption|assumption]. destruct E as [-> ->].
      f_equal. apply IH. assumption.
Qed.

Lemma join_loop_spec sep comps out first :
  join_loop sep first comps out =
  match comps with [] => out | _ => out ++ (if first then [] else sep) ++ joined sep comps end.
Proof.
  revert out first. induction comps as [|c comps IH]; intros out first; cbn [join_loop]; [reflexivity|].
  rewrite IH. destruct comps as [|d comps].
  - cbn [joined]. destruct first; cbn [app]; rewrite ?app_assoc; reflexivity.
  - cbn [joined]. destruct first; cbn [app]; rewrite <- ?app_assoc; reflexivity.
Qed.

Lemma sv_join_joined sep comps : sv_join sep comps = joined sep comps.
Proof. unfold sv_join. rewrite join_loop_spec. destruct comps; reflexivity. Qed.

Lemma words_joined sep ws : Forall (fun w => w <> [] /\ ~ In sep w) ws -> words sep (joined [sep] ws) ws.
Proof.
  induction 1 as [|w ws [Hw Hn] H IH]; [constructor|].
  destruct ws as [|v ws]; [apply words_last; assumption|].
  change (joined [sep] (w :: v :: ws)) with (w ++ sep :: joined [sep] (v :: ws)).
  apply words_cons; assumption.
Qed.

Lemma split_join sep ws : Forall (fun w => w <> [] /\ ~ In sep w) ws ->
  sv_splitByte sep (sv_join [sep] ws) = ws.
Proof.
  intros H. rewrite sv_join_joined. eapply words_unique; [apply sv_splitByte_words|].
  apply words_joined, H.
Qed.

(** ** Case, reversal *)
Lemma sv_reversedBytes_rev s : sv_reversedBytes s = rev s.
Proof.
  unfold sv_reversedBytes. rewrite <- (rev_involutive s) at 1 2. rewrite rev_length.
  generalize (rev s). clear s. intros s. rewrite <- (app_nil_r (rev s)).
  rewrite <- (rev_length s). generalize (@nil Z) as t.
  assert (H : forall l t, reversed_loop (length l) (l ++ t) = rev l).
  { intros l t. induction l as [|c l IH] using rev_ind; [reflexivity|].
    rewrite app_length, rev_app_distr. cbn [length rev app]. rewrite Nat.add_1_r. cbn [reversed_loop].
    rewrite <- app_assoc. f_equal.
    - rewrite app_nth2 by lia. rewrite Nat.sub_diag. reflexivity.
    - clear IH. generalize ([c] ++ t) as u. intros u. 
      assert (G : forall m l u, (m <= length l)%nat -> reversed_loop m (l ++ u) = reversed_loop m l).
      { induction m as [|m IHm]; intros l' u' Hm; [reflexivity|]. cbn [reversed_loop].
        rewrite app_nth1 by lia. f_equal. apply IHm. lia. }
      rewrite G by lia. clear u.
      induction l as [|d l IH] using rev_ind; [reflexivity|].
      rewrite app_length, rev_app_distr. cbn [length rev app]. rewrite Nat.add_1_r. cbn [reversed_loop].
      rewrite app_nth2 by lia. rewrite Nat.sub_diag. cbn [nth]. f_equal.
      rewrite G by lia. apply IH. }
  intros t. rewrite H. apply rev_involutive.
Qed.

Lemma sv_upper_spec s : Forall2 (fun c d => (97 <= c <= 122 -> d = c - 32) /\ (~ 97 <= c <= 122 -> d = c))
  s (sv_upperAsc s).
Proof.
  unfold sv_upperAsc. induction s as [|c s IH]; cbn [map]; constructor; [|assumption].
  destruct ((97 <=? c) && (c <=? 122)) eqn:E; lia.
Qed.
Lemma sv_lower_spec s : Forall2 (fun c d => (65 <= c <= 90 -> d = c + 32) /\ (~ 65 <= c <= 90 -> d = c))
  s (sv_lowerAsc s).
Proof.
  unfold sv_lowerAsc. induction s as [|c s IH]; cbn [map]; constructor; [|assumption].
  destruct ((65 <=? c) && (c <=? 90)) eqn:E; lia.
Qed.

(** ** UTF-8 reversal *)
Lemma utf8_back_bounds s : s <> [] -> (1 <= utf8_back s <= length s)%nat.
Proof.
  intros Hs. unfold utf8_back. rewrite <- (rev_length s).
  assert (Hr : rev s <> []). { intros E. apply Hs. rewrite <- (rev_involutive s), E. reflexivity. }
  destruct (rev s) as [|t1 [|t2 [|t3 [|t4 r]]]]; [congruence| | | |]; cbn [length];
    destruct (t1 <? 128); try lia; cbn [utf8_back_slow];
    repeat match goal with |- context [if ?b then _ else _] => destruct b end; lia.
Qed.

Lemma reversedUTF8_loop_total fuel src out : (length src <= fuel)%nat ->
  exists r, reversedUTF8_loop fuel src (length src) out = Some r /\ Permutation r (out ++ src).
Proof.
  revert src out. induction fuel as [|f IH]; intros src out Hf.
  - destruct src; [|cbn in Hf; lia]. exists out. rewrite app_nil_r. split; [reflexivity|apply Permutation_refl].
  - destruct src as [|c src']; [exists out; rewrite app_nil_r; split; [reflexivity|apply Permutation_refl]|].
    remember (c :: src') as src eqn:Es.
    assert (Hs : src <> []) by (rewrite Es; discriminate).
    pose proof (utf8_back_bounds src Hs) as Hb.
    destruct (length src) as [|m] eqn:El; [lia|]. cbn [reversedUTF8_loop]. rewrite El.
    destruct (Nat.eqb_spec (utf8_back src) 0); [lia|].
    replace ((S m <? utf8_back src)%nat || (S m <? utf8_back src)%nat) with false by lia.
    destruct (IH (firstn (S m - utf8_back src) src) (out ++ skipn (S m - utf8_back src) src)) as (r & E & P).
    { rewrite firstn_length. lia. }
    rewrite firstn_length, El in E. rewrite Nat.min_l in E by lia.
    exists r. split; [exact E|]. eapply Permutation_trans; [exact P|].
    rewrite <- app_assoc. apply Permutation_app_head.
    eapply Permutation_trans; [apply Permutation_app_comm|]. rewrite firstn_skipn. apply Permutation_refl.
Qed.

Lemma sv_reversedUTF8_total s : exists r, sv_reversedUTF8 s = Some r /\ Permutation r s.
Proof. unfold sv_reversedUTF8. destruct (reversedUTF8_loop_total (length s) s []) as (r & E & P); eauto. Qed.

Lemma reversedUTF8_loop_forms fuel ls out :
  Forall (fun l => exists p, utf8_form l p) ls -> (length (concat ls) <= fuel)%nat ->
  reversedUTF8_loop fuel (concat ls) (length (concat ls)) out = Some (out ++ concat (rev ls)).
Proof.
  revert ls out. induction fuel as [|f IH]; intros ls out HF Hf;
    destruct ls as [|l ls] using rev_ind.
  - rewrite app_nil_r. reflexivity.
  - exfalso. apply Forall_app in HF. destruct HF as [_ HF]. inversion HF as [|? ? [p Hp] _]; subst.
    rewrite concat_app, app_length in Hf. cbn in Hf. rewrite app_nil_r in Hf. destruct Hp; cbn in Hf; lia.
  - rewrite app_nil_r. reflexivity.
  - clear IHls. apply Forall_app in HF. destruct HF as [HF1 HF2].
    inversion HF2 as [|? ? [p Hp] _]; subst. rewrite concat_app in *. cbn [concat] in *.
    rewrite app_nil_r in *. rewrite rev_app_distr. cbn [rev app concat].
    pose proof (utf8_back_form (concat ls) l p Hp) as Hb.
    assert (Hl : (1 <= length l)%nat) by (destruct Hp; cbn; lia).
    rewrite app_length in *. remember (length (concat ls) + length l)%nat as n eqn:En.
    destruct n as [|n]; [lia|]. cbn [reversedUTF8_loop]. rewrite Hb, app_length, <- En.
    destruct (Nat.eqb_spec (length l) 0); [lia|].
    replace ((S n <? length l)%nat || (S n <? length l)%nat) with false by lia.
    replace (S n - length l)%nat with (length (concat ls)) by lia.
    rewrite firstn_app, firstn_all, Nat.sub_diag. cbn [firstn]. rewrite app_nil_r.
    rewrite skipn_app, skipn_all, Nat.sub_diag. cbn [skipn app].
    rewrite IH; [|assumption|lia]. rewrite <- app_assoc. reflexivity.
Qed.

Lemma sv_reversedUTF8_points ps : Forall (fun p => 0 <= p < 0x200000) ps ->
  sv_reversedUTF8 (concat (map utf8_encode ps)) = Some (concat (map utf8_encode (rev ps))).
Proof.
  intros H. unfold sv_reversedUTF8. rewrite reversedUTF8_loop_forms; [|clear -H|lia].
  - rewrite map_rev. reflexivity.
  - rewrite Forall_map. eapply Forall_impl; [|exact H]. intros p Hp. exists p. apply utf8_encode_form, Hp.
Qed.

(** ** Null terminators *)
Lemma sv_null_spec s : s <> [] ->
  (sv_includesNull s = true <-> exists t, s = t ++ [0]).
Proof.
  intros Hs. destruct s as [|c s _] using rev_ind; [congruence|].
  unfold sv_includesNull. rewrite app_length. cbn [length]. rewrite Nat.add_1_r.
  cbn [Nat.ltb Nat.leb]. rewrite app_nth2 by lia.
  replace (S (length s) - 1 - length s)%nat with 0%nat by lia. cbn [nth]. rewrite Z.eqb_eq. split.
  - intros ->. exists s. reflexivity.
  - intros [t E]. apply app_inj_tail in E. tauto.
Qed.
Lemma sv_withNull_ends s : exists t, sv_withNull s = t ++ [0].
Proof.
  unfold sv_withNull. destruct (sv_includesNull s) eqn:E; [|eauto].
  apply sv_null_spec in E; [assumption|]. intros ->. discriminate.
Qed.
Lemma sv_withoutNull_withNull s : sv_includesNull s = false -> sv_withoutNull (sv_withNull s) = s.
Proof.
  intros E. unfold sv_withNull. rewrite E. unfold sv_withoutNull.
  assert (E' : sv_includesNull (s ++ [0]) = true).
  { apply sv_null_spec; [destruct s; discriminate|]. eauto. }
  rewrite E', app_length. cbn [length]. replace (length s + 1 - 1)%nat with (length s) by lia.
  rewrite firstn_app, firstn_all, Nat.sub_diag. apply app_nil_r.
Qed.

(** ** Comparison *)
Lemma s32_u32_small x : - 2 ^ 31 <= x < 2 ^ 31 -> s32 (u32 x) = x.
Proof.
  intros H. unfold s32, to_signed, u32. cbv zeta. change (32 - 1) with 31.
  rewrite Z.mod_mod by lia. change (2 ^ 32) with 4294967296 in *. change (2 ^ 31) with 2147483648 in *.
  destruct (Z.ltb_spec (x mod 4294967296) 2147483648); lia.
Qed.

Lemma lex_irrefl a : ~ lex_lt a a.
Proof. induction a as [|x a IH]; intros H; inversion H; subst; [lia|auto]. Qed.

Lemma lex_trans a b c : lex_lt a b -> lex_lt b c -> lex_lt a c.
Proof.
  intros H. revert c. induction H; intros c H'; inversion H'; subst; try (constructor; lia).
  apply lex_tail. auto.
Qed.

Lemma compare_spec a b : zlen a < 2 ^ 31 -> zlen b < 2 ^ 31 ->
  (sv_compare a b < 0 /\ lex_lt a b) \/ (sv_compare a b = 0 /\ a = b) \/ (0 < sv_compare a b /\ lex_lt b a).
Proof.
  intros Ha Hb. unfold sv_compare.
  rewrite (s32_u32_small (zlen a - zlen b)) by (pose proof (zlen_nonneg a); pose proof (zlen_nonneg b); lia).
  clear Ha Hb. revert b. induction a as [|x a IH]; intros [|y b]; cbn [compare_loop]; unfold zlen in *; cbn [length].
  - right. left. split; [lia|reflexivity].
  - left. split; [lia|constructor].
  - right. right. split; [lia|constructor].
  - destruct (Z.eqb_spec (x - y) 0).
    + replace y with x by lia. specialize (IH b).
      destruct (compare_loop a b) as [d|].
      * destruct IH as [[H1 H2]|[[H1 H2]|[H1 H2]]].
        -- left. split; [assumption|apply lex_tail; assumption].
        -- right. left. subst. auto.
        -- right. right. split; [assumption|apply lex_tail; assumption].
      * destruct IH as [[H1 H2]|[[H1 H2]|[H1 H2]]].
        -- left. split; [lia|apply lex_tail; assumption].
        -- right. left. subst. split; [lia|reflexivity].
        -- right. right. split; [lia|apply lex_tail; assumption].
    + destruct (Z.lt_ge_cases x y).
      * left. split; [lia|apply lex_head; lia].
      * right. right. split; [lia|apply lex_head; lia].
Qed.

Lemma compare_lt a b : zlen a < 2 ^ 31 -> zlen b < 2 ^ 31 -> (sv_compare a b < 0 <-> lex_lt a b).
Proof.
  intros Ha Hb. destruct (compare_spec a b Ha Hb) as [[H1 H2]|[[H1 H2]|[H1 H2]]].
  - split; auto.
  - subst. split; [lia|]. intros H. destruct (lex_irrefl _ H).
  - split; [lia|]. intros H. destruct (lex_irrefl a). eapply lex_trans; eassumption.
Qed.
Lemma compare_eq a b : zlen a < 2 ^ 31 -> zlen b < 2 ^ 31 -> (sv_compare a b = 0 <-> a = b).
Proof.
  intros Ha Hb. destruct (compare_spec a b Ha Hb) as [[H1 H2]|[[H1 H2]|[H1 H2]]].
  - split; [lia|]. intros ->. destruct (lex_irrefl _ H2).
  - tauto.
  - split; [lia|]. intros ->. destruct (lex_irrefl _ H2).
Qed.
Lemma compare_gt a b : zlen a < 2 ^ 31 -> zlen b < 2 ^ 31 -> (0 < sv_compare a b <-> lex_lt b a).
Proof.
  intros Ha Hb. destruct (compare_spec a b Ha Hb) as [[H1 H2]|[[H1 H2]|[H1 H2]]].
  - split; [lia|]. intros H. destruct (lex_irrefl a). eapply lex_trans; eassumption.
  - subst. split; [lia|]. intros H. destruct (lex_irrefl _ H).
  - tauto.
Qed.
Lemma lex_total a b : lex_lt a b \/ a = b \/ lex_lt b a.
Proof.
  revert b. induction a as [|x a IH]; intros [|y b]; [auto|left; constructor|right; right; constructor|].
  destruct (Z.lt_trichotomy x y) as [H|[->|H]].
  - left. apply lex_head, H.
  - destruct (IH b) as [H|[->|H]]; [left; apply lex_tail, H|auto|right; right; apply lex_tail, H].
  - right. right. apply lex_head, H.
Qed.

Lemma zlen_repeat (c : Z) n : zlen (repeat c n) = Z.of_nat n.
Proof. unfold zlen. rewrite repeat_length. reflexivity. Qed.

Lemma compare_wrap n : 2 ^ 31 < Z.of_nat n < 2 ^ 32 ->
  lex_lt [] (repeat 0 n) /\ 0 < sv_compare [] (repeat 0 n).
Proof.
  intros Hn. split; [destruct n; [lia|constructor]|].
  unfold sv_compare. cbn [compare_loop]. rewrite zlen_repeat. change (zlen []) with 0.
  unfold s32, to_signed, u32. cbv zeta. change (32 - 1) with 31. rewrite Z.mod_mod by lia.
  change (2 ^ 32) with 4294967296 in *. change (2 ^ 31) with 2147483648 in *.
  destruct (Z.ltb_spec ((0 - Z.of_nat n) mod 4294967296) 2147483648); lia.
Qed.

(** ** Concatenation and repetition *)
Lemma sv_concat_ok a b : zlen a + zlen b < 2 ^ 32 -> sv_concat a b = Some (a ++ b).
Proof.
  intros H. unfold sv_concat, u32. pose proof (zlen_nonneg a). pose proof (zlen_nonneg b).
  rewrite Z.mod_small by lia. rewrite Z.leb_refl. reflexivity.
Qed.
Lemma repeat_loop_spec s n out : repeat_loop s n out = out ++ concat (repeat s n).
Proof.
  revert out. induction n as [|n IH]; intros out; cbn; [rewrite app_nil_r; reflexivity|].
  rewrite IH, <- app_assoc. reflexivity.
Qed.
Lemma sv_repeat_ok s n : zlen s * Z.of_nat n < 2 ^ 32 -> sv_repeat s n = Some (concat (repeat s n)).
Proof.
  intros H. unfold sv_repeat, u32. pose proof (zlen_nonneg s).
  rewrite Z.mod_small by nia. rewrite Z.leb_refl, repeat_loop_spec. reflexivity.
Qed.
Lemma sv_concat_overflow a b : 2 ^ 32 <= zlen a + zlen b -> sv_concat a b = None.
Proof.
  intros H. unfold sv_concat, u32.
  pose proof (Z.mod_pos_bound (zlen a + zlen b) (2 ^ 32) ltac:(lia)).
  replace (zlen a + zlen b <=? (zlen a + zlen b) mod 2 ^ 32) with false by lia. reflexivity.
Qed.
