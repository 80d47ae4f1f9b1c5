From Coq Require Import ZifyBool ZifyNat.
From Verif Require Import Base TextEncodingModel TextEncodingSpec TextEncodingProofs TextConvModel TextConvSpec.
Ltac Zify.zify_post_hook ::= Z.div_mod_to_equations.

Definition stops (flush : bool) (d : dres) : bool := isTruncated d && negb (flush && (0 <=? point d)).
Fixpoint settle (flush : bool) (fuel : nat) (e : encoding) (v : list Z) : list Z * list Z :=
  match fuel, v with
  | S fuel, _ :: _ =>
    let d := decode e v in
    if stops flush d then ([], v) else let (ps, t) := settle flush fuel e (skipn (nbytes d) v) in (point d :: ps, t)
  | _, _ => ([], v)
  end.

Lemma skipn_skipn {A} n m : forall l : list A, skipn n (skipn m l) = skipn (n + m) l.
Proof. induction m as [|m IH]; intros l; [rewrite Nat.add_0_r; reflexivity|]. destruct l as [|x l]; [rewrite !skipn_nil; reflexivity|]. rewrite Nat.add_succ_r. cbn [skipn]. apply IH. Qed.
Section Conv.
Context (dst src : encoding).
Hypothesis P1 : forall v, bytes_ok v -> 0 <= point (decode src v) <-> (0 < nbytes (decode src v))%nat.
Hypothesis P2 : forall v, bytes_ok v -> (nbytes (decode src v) <= length v)%nat.
Hypothesis P3 : forall v, bytes_ok v -> stat (decode src v) <> Truncated -> 0 <= point (decode src v).
Hypothesis P4 : forall v w, bytes_ok v -> stat (decode src v) <> Truncated -> decode src (v ++ w) = decode src v.
Hypothesis P5 : forall v, decode src (firstn 4 v) = decode src v.
Hypothesis P7 : forall v w, stat (decode src v) = Truncated -> (4 <= length v)%nat -> stat (decode src (v ++ w)) = Truncated.
Hypothesis Pd : forall p, (1 <= length (encode dst p) <= 4)%nat.

Definition St (flush : bool) (v : list Z) := settle flush (length v) src v.
Definition enc (ps : list Z) : list Z := encoded dst ps.

Lemma ok_skipn n v : bytes_ok v -> bytes_ok (skipn n v).
Proof. intros H. unfold bytes_ok in *. rewrite <- (firstn_skipn n v) in H. apply Forall_app in H. apply H. Qed.
Lemma ok_app v w : bytes_ok v -> bytes_ok w -> bytes_ok (v ++ w).
Proof. intros. apply Forall_app. split; assumption. Qed.
Lemma isTruncated_iff d : isTruncated d = true <-> stat d = Truncated.
Proof. unfold isTruncated. destruct (stat d); split; intros; congruence. Qed.
Lemma isTruncated_false d : isTruncated d = false <-> stat d <> Truncated.
Proof. unfold isTruncated. destruct (stat d); split; intros; congruence. Qed.
Lemma go_ok flush v : bytes_ok v -> stops flush (decode src v) = false -> 0 <= point (decode src v) /\ (0 < nbytes (decode src v) <= length v)%nat.
Proof.
  intros Hv H. pose proof (P2 v Hv). pose proof (P1 v Hv). unfold stops in H. destruct (isTruncated (decode src v)) eqn:E.
  - destruct flush; cbn [andb negb] in H; [|discriminate]. lia.
  - apply isTruncated_false in E. pose proof (P3 v Hv E). lia.
Qed.
Lemma settle_fuel flush : forall f g v, bytes_ok v -> (length v <= f)%nat -> (length v <= g)%nat -> settle flush f src v = settle flush g src v.
Proof.
  induction f as [|f IH]; intros [|g] v Hv Hf Hg; destruct v as [|b v]; cbn [length] in *; try reflexivity; try lia.
  cbn [settle]. destruct (stops flush (decode src (b :: v))) eqn:E; [reflexivity|]. destruct (go_ok _ _ Hv E) as (_ & Hn).
  rewrite (IH g); [reflexivity|apply ok_skipn, Hv| |]; rewrite skipn_length; cbn [length] in *; lia.
Qed.
Lemma St_nil flush : St flush [] = ([], []).
Proof. reflexivity. Qed.
Lemma St_stop flush v : stops flush (decode src v) = true -> St flush v = ([], v).
Proof. intros H. destruct v as [|b v]; [reflexivity|]. unfold St. cbn [length settle]. rewrite H. reflexivity. Qed.
Lemma St_go flush v : bytes_ok v -> stops flush (decode src v) = false ->
  St flush v = (point (decode src v) :: fst (St flush (skipn (nbytes (decode src v)) v)), snd (St flush (skipn (nbytes (decode src v)) v))).
Proof.
  intros Hv H. destruct (go_ok _ _ Hv H) as (_ & Hn). destruct v as [|b v]; [cbn in Hn; lia|]. unfold St at 1. cbn [length settle]. rewrite H.
  unfold St. rewrite (settle_fuel flush (length v) (length (skipn (nbytes (decode src (b :: v))) (b :: v)))); [|apply ok_skipn, Hv| |]; [|rewrite skipn_length; cbn [length] in *; lia|lia]. destruct (settle _ _ _ _). reflexivity.
Qed.
Lemma St_ind (Q : list Z -> Prop) flush : (forall v, bytes_ok v -> stops flush (decode src v) = true -> Q v) ->
  (forall v, bytes_ok v -> stops flush (decode src v) = false -> Q (skipn (nbytes (decode src v)) v) -> Q v) -> forall v, bytes_ok v -> Q v.
Proof.
  intros H1 H2 v. remember (length v) as n eqn:E. revert v E. induction n as [n IH] using lt_wf_ind. intros v -> Hv. destruct (stops flush (decode src v)) eqn:S; [apply H1; assumption|].
  apply H2; try assumption. destruct (go_ok _ _ Hv S) as (_ & Hn). apply (IH (length (skipn (nbytes (decode src v)) v))); [rewrite skipn_length; lia|reflexivity|apply ok_skipn, Hv].
Qed.
Lemma St_count flush v : bytes_ok v -> (length (fst (St flush v)) + length (snd (St flush v)) <= length v)%nat.
Proof.
  revert v. apply (St_ind (fun v => (length (fst (St flush v)) + length (snd (St flush v)) <= length v)%nat) flush).
  - intros v Hv S. rewrite (St_stop _ _ S). cbn. lia.
  - intros v Hv S IH. destruct (go_ok _ _ Hv S) as (_ & Hn). rewrite (St_go _ _ Hv S). cbn [fst snd length]. rewrite skipn_length in IH. lia.
Qed.
Lemma St_ok flush v : bytes_ok v -> bytes_ok (snd (St flush v)).
Proof.
  revert v. apply (St_ind (fun v => bytes_ok (snd (St flush v))) flush).
  - intros v Hv S. rewrite (St_stop _ _ S). exact Hv.
  - intros v Hv S IH. rewrite (St_go _ _ Hv S). exact IH.
Qed.
Lemma stops_false_iff d : stops false d = isTruncated d.
Proof. unfold stops. cbn [andb negb]. apply andb_true_r. Qed.
(* splitting a text *)
Lemma skipn_app_le {A} n (v w : list A) : (n <= length v)%nat -> skipn n (v ++ w) = skipn n v ++ w.
Proof. intros H. rewrite skipn_app. replace (n - length v)%nat with 0%nat by lia. reflexivity. Qed.
Lemma St_app flush w : bytes_ok w -> forall v, bytes_ok v ->
  fst (St flush (v ++ w)) = fst (St false v) ++ fst (St flush (snd (St false v) ++ w)) /\ snd (St flush (v ++ w)) = snd (St flush (snd (St false v) ++ w)).
Proof.
  intros Hw. apply (St_ind (fun v => fst (St flush (v ++ w)) = fst (St false v) ++ fst (St flush (snd (St false v) ++ w)) /\ snd (St flush (v ++ w)) = snd (St flush (snd (St false v) ++ w))) false).
  - intros v Hv S. rewrite (St_stop _ _ S). split; reflexivity.
  - intros v Hv S (I1 & I2). destruct (go_ok _ _ Hv S) as (_ & Hn). rewrite (St_go _ _ Hv S). cbn [fst snd app].
    rewrite stops_false_iff in S. assert (S' := S). apply isTruncated_false in S'. pose proof (P4 v w Hv S') as E.
    assert (T : stops flush (decode src (v ++ w)) = false) by (unfold stops; rewrite E, S; reflexivity).
    rewrite (St_go _ _ (ok_app _ _ Hv Hw) T). cbn [fst snd]. rewrite E, skipn_app_le by lia. rewrite I1, I2. split; reflexivity.
Qed.
Lemma St_prefix w : bytes_ok w -> forall v, bytes_ok v -> (length (snd (St false (v ++ w))) < 4)%nat -> (length (snd (St false v)) < 4)%nat.
Proof.
  intros Hw. apply (St_ind (fun v => (length (snd (St false (v ++ w))) < 4)%nat -> (length (snd (St false v)) < 4)%nat) false).
  - intros v Hv S H. rewrite (St_stop _ _ S). cbn [snd]. destruct (Nat.lt_ge_cases (length v) 4) as [|G]; [assumption|].
    rewrite stops_false_iff in S. apply isTruncated_iff in S. pose proof (P7 v w S G) as T. rewrite St_stop in H; [cbn [snd] in H; rewrite app_length in H; lia|]. rewrite stops_false_iff. apply isTruncated_iff, T.
  - intros v Hv S IH H. destruct (go_ok _ _ Hv S) as (_ & Hn). rewrite (St_go _ _ Hv S). cbn [snd]. apply IH.
    rewrite stops_false_iff in S. assert (S' := S). apply isTruncated_false in S'. pose proof (P4 v w Hv S') as E.
    assert (T : stops false (decode src (v ++ w)) = false) by (rewrite stops_false_iff, E; exact S).
    rewrite (St_go _ _ (ok_app _ _ Hv Hw) T) in H. cbn [snd] in H. rewrite E, skipn_app_le in H by lia. exact H.
Qed.

Lemma enc_app a b : enc (a ++ b) = enc a ++ enc b.
Proof. apply flat_map_app. Qed.
Lemma enc_cons p ps : enc (p :: ps) = encode dst p ++ enc ps.
Proof. reflexivity. Qed.
Lemma enc_nil_inv ps : enc ps = [] -> ps = [].
Proof. destruct ps as [|p ps]; [reflexivity|]. rewrite enc_cons. intros H. pose proof (Pd p). apply (f_equal (@length Z)) in H. rewrite app_length in H. cbn in H. lia. Qed.
Lemma enc_length ps : (length (enc ps) <= 4 * length ps)%nat.
Proof. induction ps as [|p ps IH]; [cbn; lia|]. rewrite enc_cons, app_length. pose proof (Pd p). cbn [length]. lia. Qed.
Lemma encodeSmall_ok p : encodeSmall dst p = Some (encode dst p).
Proof. unfold encodeSmall. pose proof (Pd p). replace (0 <? length (encode dst p))%nat with true by lia. replace (length (encode dst p) <=? 4)%nat with true by lia. reflexivity. Qed.
Lemma consistent_ok v : bytes_ok v -> consistent (decode src v) = true.
Proof. intros Hv. unfold consistent. pose proof (P1 v Hv). destruct (Z.leb_spec 0 (point (decode src v))), (Nat.ltb_spec 0 (nbytes (decode src v))); try reflexivity; lia. Qed.

Lemma room_zero (e : list Z) room : (room - length (firstn room e) =? 0)%nat = (room <=? length e)%nat.
Proof. rewrite firstn_length. destruct (Nat.leb_spec room (length e)); [apply Nat.eqb_eq|apply Nat.eqb_neq]; lia. Qed.

Lemma smallLoop_ok flush : forall fuel sb0 s room out ps pd, (length sb0 <= fuel)%nat -> (length sb0 < 4)%nat -> (0 < room)%nat -> bytes_ok sb0 -> bytes_ok s ->
  St flush (sb0 ++ s) = (ps, pd) -> s = [] \/ (length pd <= length s)%nat ->
  exists r w ps1 ps2, smallLoop dst src fuel sb0 s room flush out = Some r /\ ps = ps1 ++ ps2 /\
    match r with
    | Done c' s' out' => out' = out ++ w /\ w ++ db c' = enc ps1 /\ St flush (sb c' ++ s') = (ps2, pd) /\ (length w <= room)%nat /\
        ((length w < room)%nat -> db c' = [] /\ ps2 = [] /\ sb c' ++ s' = pd /\ (flush = false -> s' = [])) /\ (length (sb c') < 4)%nat /\ bytes_ok (sb c') /\
        (sb c' <> [] -> s' = s /\ sb0 <> []) /\ exists n, s' = skipn n s
    | Go s' room' out' => out' = out ++ w /\ w = enc ps1 /\ St flush s' = (ps2, pd) /\ (room' + length w = room)%nat /\ (0 < room')%nat /\ exists n, s' = skipn n s
    end.
Proof.
  induction fuel as [|fuel IH]; intros sb0 s room out ps pd Hf H4 Hr Hb Hs HS Hc.
  - destruct sb0; [|cbn in Hf; lia]. exists (Go s room out), [], [], ps. cbn [smallLoop]. split; [reflexivity|]. split; [reflexivity|]. rewrite app_nil_r. split; [reflexivity|]. split; [reflexivity|]. split; [exact HS|]. split; [cbn; lia|]. split; [lia|]. exists 0%nat. reflexivity.
  - destruct sb0 as [|b sb0]. { exists (Go s room out), [], [], ps. cbn [smallLoop]. split; [reflexivity|]. split; [reflexivity|]. rewrite app_nil_r. split; [reflexivity|]. split; [reflexivity|]. split; [exact HS|]. split; [cbn; lia|]. split; [lia|]. exists 0%nat. reflexivity. }
    set (sbx := b :: sb0) in *. cbn [smallLoop]. fold sbx.
    assert (Ed : decode src (sbx ++ firstn (4 - length sbx) s) = decode src (sbx ++ s)).
    { rewrite <- (P5 (sbx ++ s)). f_equal. rewrite firstn_app. rewrite (firstn_all2 sbx) by lia. reflexivity. }
    rewrite Ed. pose proof (ok_app _ _ Hb Hs) as Ho. rewrite (consistent_ok _ Ho). replace (length sbx <? 4)%nat with true by lia. rewrite andb_false_r. cbn [negb andb].
    change (if isTruncated (decode src (sbx ++ s)) && negb (flush && (0 <=? point (decode src (sbx ++ s)))) then Some (Done (mkc sbx []) s out) else ?X) with (if stops flush (decode src (sbx ++ s)) then Some (Done (mkc sbx []) s out) else X).
    destruct (stops flush (decode src (sbx ++ s))) eqn:S.
    { rewrite (St_stop _ _ S) in HS. pose proof (f_equal fst HS) as HS1. pose proof (f_equal snd HS) as HS2. cbn [fst snd] in HS1, HS2. subst ps pd. assert (s = []) as ->. { destruct Hc as [|Hc]; [assumption|]. rewrite app_length in Hc. unfold sbx in Hc. cbn [length] in Hc. lia. }
      exists (Done (mkc sbx []) [] out), [], [], []. split; [reflexivity|]. split; [reflexivity|]. cbn [sb db]. rewrite !app_nil_r in *. rewrite (St_stop _ _ S). repeat split; try assumption; try reflexivity; try (cbn; lia); try discriminate. exists 0%nat. reflexivity. }
    destruct (go_ok _ _ Ho S) as (Hp & Hn). replace (0 <=? point (decode src (sbx ++ s))) with true by lia. replace (0 <? nbytes (decode src (sbx ++ s)))%nat with true by lia. cbn [negb andb].
    rewrite encodeSmall_ok. unfold drain. set (n := nbytes (decode src (sbx ++ s))) in *. set (p := point (decode src (sbx ++ s))) in *.
    rewrite (St_go _ _ Ho S) in HS. fold n p in HS. destruct (St flush (skipn n (sbx ++ s))) as [ps' pd'] eqn:HS'. cbn [fst snd] in HS. inversion HS; subst ps pd'; clear HS.
    rewrite room_zero.
    set (q := if (n <? length sbx)%nat then (skipn n sbx, s) else ([], skipn (n - length sbx) s)).
    assert (Hq : fst q ++ snd q = skipn n (sbx ++ s) /\ (length (fst q) <= length sb0)%nat /\ (fst q <> [] -> snd q = s) /\ bytes_ok (fst q) /\ exists m, snd q = skipn m s).
    { unfold q. destruct (Nat.ltb_spec n (length sbx)); cbn [fst snd].
      - split; [symmetry; apply skipn_app_le; lia|]. split; [rewrite skipn_length; unfold sbx; cbn [length]; lia|]. split; [reflexivity|]. split; [apply ok_skipn, Hb|]. exists 0%nat. reflexivity.
      - split; [rewrite skipn_app, (skipn_all2 sbx) by lia; reflexivity|]. split; [cbn; lia|]. split; [intros []; reflexivity|]. split; [constructor|]. eexists. reflexivity. }
    destruct q as [sb' s']. cbn [fst snd] in Hq. destruct Hq as (Q1 & Q2 & Q3 & Q4 & m & Q5).
    destruct (Nat.leb_spec room (length (encode dst p))) as [Hle|Hgt].
    + exists (Done (mkc sb' (skipn room (encode dst p))) s' (out ++ firstn room (encode dst p))), (firstn room (encode dst p)), [p], ps'.
      split; [reflexivity|]. split; [reflexivity|]. cbn [sb db]. split; [reflexivity|]. split; [rewrite firstn_skipn; cbn; rewrite app_nil_r; reflexivity|]. split; [rewrite Q1; exact HS'|]. split; [rewrite firstn_length; lia|]. split; [rewrite firstn_length; lia|]. split; [unfold sbx in H4; cbn [length] in H4; lia|]. split; [exact Q4|]. split; [intros H; split; [apply Q3, H|discriminate]|]. exists m. exact Q5.
    + rewrite (skipn_all2 (encode dst p)) by lia. rewrite (firstn_all2 (encode dst p)) by lia.
      destruct (IH sb' s' (room - length (encode dst p))%nat (out ++ encode dst p) ps' pd) as (r & w & ps1 & ps2 & R1 & R2 & R3).
      * unfold sbx in Hf. cbn [length] in Hf. lia.
      * unfold sbx in H4. cbn [length] in H4. lia.
      * lia.
      * exact Q4.
      * rewrite Q5. apply ok_skipn, Hs.
      * rewrite Q1. exact HS'.
      * destruct sb' as [|b' sb'].
        -- right. cbn [app] in Q1. pose proof (St_count flush s') as Sc. rewrite Q1 in Sc at 2 3. rewrite HS' in Sc. cbn [fst snd] in Sc. specialize (Sc ltac:(rewrite Q5; apply ok_skipn, Hs)). lia.
        -- rewrite (Q3 ltac:(discriminate)). exact Hc.
      * exists r, (encode dst p ++ w), (p :: ps1), ps2. split; [exact R1|]. split; [rewrite R2; reflexivity|]. destruct r as [c' s'' out'|s'' room' out'].
        -- destruct R3 as (A1 & A2 & A3 & A4 & A5 & A6 & A6' & A7 & k & A8). split; [rewrite A1, app_assoc; reflexivity|]. split; [rewrite <- app_assoc, A2; reflexivity|]. split; [exact A3|]. split; [rewrite app_length; lia|]. split; [rewrite app_length; intros H; apply A5; lia|]. split; [exact A6|]. split; [exact A6'|]. split; [intros H; destruct (A7 H) as (B1 & B2); split; [rewrite B1; apply Q3, B2|discriminate]|]. exists (k + m)%nat. rewrite A8, Q5, skipn_skipn. reflexivity.
        -- destruct R3 as (A1 & A2 & A3 & A4 & A5 & k & A8). split; [rewrite A1, app_assoc; reflexivity|]. split; [rewrite enc_cons, A2; reflexivity|]. split; [exact A3|]. split; [rewrite app_length; lia|]. split; [exact A5|]. exists (k + m)%nat. rewrite A8, Q5, skipn_skipn. reflexivity.
Qed.

Lemma directLoop_ok flush : forall fuel s room out ps pd, (length s <= fuel)%nat -> bytes_ok s -> St flush s = (ps, pd) -> (flush = false -> (length pd < 4)%nat) ->
  exists c' s' w ps1 ps2, directLoop dst src fuel s room flush out = Some (c', s', out ++ w) /\ ps = ps1 ++ ps2 /\ w ++ db c' = enc ps1 /\ St flush (sb c' ++ s') = (ps2, pd) /\ (length w <= room)%nat /\
    ((length w < room)%nat -> db c' = [] /\ ps2 = [] /\ sb c' ++ s' = pd /\ (flush = false -> s' = [])) /\ (length (sb c') < 4)%nat /\ bytes_ok (sb c') /\ (sb c' <> [] -> s' = []) /\ exists n, s' = skipn n s.
Proof.
  induction fuel as [|fuel IH]; intros s room out ps pd Hf Hs HS Hc.
  - destruct s; [|cbn in Hf; lia]. rewrite St_nil in HS. inversion HS; subst. exists (mkc [] []), [], [], [], []. cbn [directLoop]. rewrite app_nil_r. cbn [sb db]. repeat split; try reflexivity; try (cbn; lia); try constructor. exists 0%nat. reflexivity.
  - destruct s as [|b s0]. { rewrite St_nil in HS. inversion HS; subst. exists (mkc [] []), [], [], [], []. cbn [directLoop]. rewrite app_nil_r. cbn [sb db]. repeat split; try reflexivity; try (cbn; lia); try constructor. exists 0%nat. reflexivity. }
    set (s := b :: s0) in *. cbn [directLoop]. fold s. rewrite (consistent_ok _ Hs). cbn [negb]. rewrite andb_false_r.
    destruct (stops flush (decode src s)) eqn:S.
    + rewrite (St_stop _ _ S) in HS. inversion HS; subst ps pd. assert (S' := S). unfold stops in S'. apply andb_true_iff in S'. destruct S' as (S1 & S2). rewrite S1. cbn [andb]. destruct flush; cbn [andb negb] in *.
      * replace (point (decode src s) <? 0) with true by lia. exists (mkc [] []), s, [], [], []. rewrite app_nil_r. cbn [sb db]. repeat split; try reflexivity; try (cbn; lia); try constructor; try discriminate; try (exact (St_stop _ _ S)). { intros []; reflexivity. } exists 0%nat. reflexivity.
      * replace (length s <? 4)%nat with true by (specialize (Hc eq_refl); lia). exists (mkc s []), [], [], [], []. rewrite !app_nil_r. cbn [sb db]. repeat split; try reflexivity; try (cbn; lia); try assumption; try (exact (St_stop _ _ S)). { exact (Hc eq_refl). } exists (length s). symmetry. apply skipn_all.
    + destruct (go_ok _ _ Hs S) as (Hp & Hn).
      assert (B1 : isTruncated (decode src s) && negb flush = false) by (unfold stops in S; destruct (isTruncated (decode src s)), flush; cbn [andb negb] in *; congruence). rewrite B1.
      replace (point (decode src s) <? 0) with false by lia. rewrite andb_false_r. rewrite encodeSmall_ok. unfold drain. set (n := nbytes (decode src s)) in *. set (p := point (decode src s)) in *.
      rewrite (St_go _ _ Hs S) in HS. fold n p in HS. destruct (St flush (skipn n s)) as [ps' pd'] eqn:HS'. cbn [fst snd] in HS. inversion HS; subst ps pd'; clear HS.
      assert (Step : forall room', (room' + length (encode dst p) = room)%nat ->
         exists c' s' w ps1 ps2, directLoop dst src fuel (skipn n s) room' flush (out ++ encode dst p) = Some (c', s', out ++ w) /\ p :: ps' = ps1 ++ ps2 /\ w ++ db c' = enc ps1 /\ St flush (sb c' ++ s') = (ps2, pd) /\ (length w <= room)%nat /\
    ((length w < room)%nat -> db c' = [] /\ ps2 = [] /\ sb c' ++ s' = pd /\ (flush = false -> s' = [])) /\ (length (sb c') < 4)%nat /\ bytes_ok (sb c') /\ (sb c' <> [] -> s' = []) /\ exists n, s' = skipn n s).
      { intros room' Hr. destruct (IH (skipn n s) room' (out ++ encode dst p) ps' pd) as (c' & s' & w & ps1 & ps2 & R1 & R2 & R3 & R4 & R5 & R6 & R7 & R7' & R8 & k & R9).
        - rewrite skipn_length. unfold s in *. cbn [length] in *. lia.
        - apply ok_skipn, Hs.
        - exact HS'.
        - exact Hc.
        - exists c', s', (encode dst p ++ w), (p :: ps1), ps2. rewrite R1, <- app_assoc. split; [reflexivity|]. split; [rewrite R2; reflexivity|]. split; [rewrite <- app_assoc, R3; reflexivity|]. split; [exact R4|]. split; [rewrite app_length; lia|]. split; [rewrite app_length; intros H; apply R6; lia|]. split; [exact R7|]. split; [exact R7'|]. split; [exact R8|]. exists (k + n)%nat. rewrite R9, skipn_skipn. reflexivity. }
      pose proof (Pd p) as Hpd. destruct (Nat.leb_spec 4 room) as [H4|H4]; [apply Step; lia|]. rewrite room_zero.
      destruct (Nat.leb_spec room (length (encode dst p))) as [Hle|Hgt].
      * exists (mkc [] (skipn room (encode dst p))), (skipn n s), (firstn room (encode dst p)), [p], ps'. cbn [sb db app]. split; [reflexivity|]. split; [reflexivity|]. split; [rewrite firstn_skipn; cbn; rewrite app_nil_r; reflexivity|]. split; [exact HS'|]. split; [rewrite firstn_length; lia|]. split; [rewrite firstn_length; lia|]. split; [cbn; lia|]. split; [constructor|]. split; [intros []; reflexivity|]. exists n. reflexivity.
      * rewrite (skipn_all2 (encode dst p)) by lia. rewrite (firstn_all2 (encode dst p)) by lia. apply Step. lia.
Qed.

(* a call of convert: [ps], the points that can be decoded, and [pd], what stays *)
Lemma convert_ok flush c s room ps pd : (length (sb c) < 4)%nat -> (0 < room)%nat -> bytes_ok (sb c) -> bytes_ok s -> St flush (sb c ++ s) = (ps, pd) ->
  s = [] \/ sb c = [] \/ (length pd <= length s)%nat -> (flush = false -> (length pd < 4)%nat) ->
  exists c' s' out ps1 ps2, convert dst src c s room flush = Some (c', s', out) /\ (length out <= room)%nat /\ ps = ps1 ++ ps2 /\ out ++ db c' = db c ++ enc ps1 /\ St flush (sb c' ++ s') = (ps2, pd) /\
    ((length out < room)%nat -> db c' = [] /\ ps2 = [] /\ sb c' ++ s' = pd /\ (flush = false -> s' = [])) /\ (length (sb c') < 4)%nat /\ bytes_ok (sb c') /\
    (sb c' <> [] -> s' = [] \/ s' = s /\ sb c <> []) /\ exists n, s' = skipn n s.
Proof.
  intros H4 Hr Hb Hs HS Hc Hl. unfold convert. replace (room =? 0)%nat with false by lia. unfold drain. rewrite room_zero.
  destruct (Nat.leb_spec room (length (db c))) as [Hle|Hgt].
  - exists (mkc (sb c) (skipn room (db c))), s, (firstn room (db c)), [], ps. cbn [sb db]. split; [reflexivity|]. split; [rewrite firstn_length; lia|]. split; [reflexivity|]. split; [rewrite firstn_skipn; cbn; rewrite app_nil_r; reflexivity|]. split; [exact HS|]. split; [rewrite firstn_length; lia|]. split; [exact H4|]. split; [exact Hb|]. split; [right; split; [reflexivity|assumption]|]. exists 0%nat. reflexivity.
  - rewrite (skipn_all2 (db c)) by lia. rewrite (firstn_all2 (db c)) by lia.
    assert (Hc' : s = [] \/ (length pd <= length s)%nat).
    { destruct Hc as [|[Hc|]]; [left; assumption| |right; assumption]. right. rewrite Hc in HS. cbn [app] in HS. pose proof (St_count flush s Hs) as Sc. rewrite HS in Sc. cbn [fst snd] in Sc. lia. }
    destruct (smallLoop_ok flush (length (sb c)) (sb c) s (room - length (db c))%nat (db c) ps pd) as (r & w & ps1 & ps2 & -> & R2 & R3); try assumption; try lia.
    destruct r as [c' s' out'|s' room' out'].
    + destruct R3 as (A1 & A2 & A3 & A4 & A5 & A6 & A6' & A7 & k & A8). exists c', s', out', ps1, ps2. split; [reflexivity|]. split; [rewrite A1, app_length; lia|]. split; [exact R2|]. split; [rewrite A1, <- app_assoc, A2; reflexivity|]. split; [exact A3|]. split; [rewrite A1, app_length; intros H; apply A5; lia|]. split; [exact A6|]. split; [exact A6'|]. split; [intros H; right; apply A7, H|]. exists k. exact A8.
    + destruct R3 as (A1 & A2 & A3 & A4 & A5 & k & A8). destruct (directLoop_ok flush (length s') s' room' out' ps2 pd) as (c' & s'' & w' & ps3 & ps4 & -> & B2 & B3 & B4 & B5 & B6 & B7 & B7' & B8 & m & B9); try assumption; try lia.
      { rewrite A8. apply ok_skipn, Hs. }
      exists c', s'', (out' ++ w'), (ps1 ++ ps3), ps4. split; [reflexivity|]. split; [rewrite A1, !app_length; lia|]. split; [rewrite R2, B2, app_assoc; reflexivity|]. split; [rewrite A1, <- !app_assoc, B3, enc_app, A2; reflexivity|]. split; [exact B4|]. split; [rewrite A1, !app_length; intros H; apply B6; lia|]. split; [exact B7|]. split; [exact B7'|]. split; [intros H; left; apply B8, H|]. exists (m + k)%nat. rewrite B9, A8, skipn_skipn. reflexivity.
Qed.

(* ---- writing ---- *)
Section Writing.
Context (space : nat -> nat).
Hypothesis Hspace : forall k, (0 < space k)%nat.

Lemma writeTo_ok flush : forall fuel c k s ps pd, (length (db c) + length (enc ps) < fuel)%nat -> (length (sb c) < 4)%nat -> bytes_ok (sb c) -> bytes_ok s ->
  St flush (sb c ++ s) = (ps, pd) -> s = [] \/ sb c = [] \/ (length pd <= length s)%nat -> (flush = false -> (length pd < 4)%nat) ->
  exists c' k' s', writeTo dst src space fuel c k s flush = Some (c', k', s', db c ++ enc ps) /\ db c' = [] /\ sb c' ++ s' = pd /\ (flush = false -> s' = []) /\ (length (sb c') < 4)%nat /\ bytes_ok (sb c') /\ exists n, s' = skipn n s.
Proof.
  induction fuel as [|fuel IH]; intros c k s ps pd Hf H4 Hb Hs HS Hc Hl; [lia|]. cbn [writeTo]. pose proof (Hspace k). replace (space k =? 0)%nat with false by lia.
  destruct (convert_ok flush c s (space k) ps pd) as (c' & s' & out & ps1 & ps2 & -> & _ & R2 & R3 & R4 & R5 & R6 & R7 & R8 & n & R9); try assumption.
  assert (Hlen : (length out + length (db c') + length (enc ps2) = length (db c) + length (enc ps))%nat).
  { apply (f_equal (@length Z)) in R3. rewrite !app_length in R3. rewrite R2, enc_app, app_length. lia. }
  destruct out as [|o out].
  - destruct (R5 ltac:(cbn; lia)) as (E1 & E2 & E3 & E4). exists c', (Datatypes.S k), s'. split; [|repeat split; try assumption; exists n; exact R9]. rewrite E1 in R3. cbn [app] in R3. symmetry in R3. rewrite R2, E2, app_nil_r. rewrite R3. reflexivity.
  - destruct (IH c' (Datatypes.S k) s' ps2 pd) as (c2 & k2 & s2 & W1 & W2 & W3 & W4 & W5 & W6 & m & W7); try assumption.
    + cbn [length] in Hlen. lia.
    + rewrite R9. apply ok_skipn, Hs.
    + destruct (sb c') as [|x y] eqn:E; [right; left; reflexivity|]. destruct (R8 ltac:(discriminate)) as [|(-> & B)]; [left; assumption|]. destruct Hc as [|[Hc|Hc]]; [left; assumption|contradiction|right; right; assumption].
    + exists c2, k2, s2. rewrite W1. split; [|repeat split; try assumption; exists (m + n)%nat; rewrite W7, R9, skipn_skipn; reflexivity]. do 2 f_equal. rewrite R2, enc_app, (app_assoc (db c)), <- R3, <- app_assoc. reflexivity.
Qed.
Lemma enough_ok flush c s : bytes_ok (sb c) -> bytes_ok s -> (length (db c) + length (enc (fst (St flush (sb c ++ s)))) < enough c s)%nat.
Proof. intros Hb Hs. unfold enough. pose proof (enc_length (fst (St flush (sb c ++ s)))). pose proof (St_count flush _ (ok_app _ _ Hb Hs)) as Sc. rewrite app_length in Sc. lia. Qed.

(* one piece *)
Lemma write_ok before p c k : bytes_ok before -> bytes_ok p -> db c = [] -> sb c = snd (St false before) -> (length (snd (St false (before ++ p))) < 4)%nat ->
  p = [] \/ (length (snd (St false (before ++ p))) <= length p)%nat ->
  exists c' k' out, pipeStep dst src space c k (Write p) = Some (c', k', out) /\ db c' = [] /\ sb c' = snd (St false (before ++ p)) /\ enc (fst (St false (before ++ p))) = enc (fst (St false before)) ++ out.
Proof.
  intros Hb Hp Hd Hs Hl Hc. destruct (St_app false p Hp before Hb) as (A1 & A2). pose proof (St_prefix p Hp before Hb Hl) as Hpre. pose proof (St_ok false before Hb) as Ho. rewrite A1, A2 in *. rewrite <- Hs in *.
  unfold pipeStep. destruct (St false (sb c ++ p)) as [ps pd] eqn:E. cbn [fst snd] in *. pose proof (enough_ok false c p Ho Hp) as En. rewrite E in En. cbn [fst] in En.
  destruct (writeTo_ok false (enough c p) c k p ps pd) as (c' & k' & s' & -> & W2 & W3 & W4 & W5 & W6 & _); try assumption.
  - destruct Hc; [left|right; right]; assumption.
  - intros _. exact Hl.
  - exists c', k', (db c ++ enc ps). split; [reflexivity|]. split; [exact W2|]. split; [rewrite (W4 eq_refl), app_nil_r in W3; exact W3|]. rewrite Hd, enc_app. reflexivity.
Qed.
Lemma flush_ok before c k : bytes_ok before -> db c = [] -> sb c = snd (St false before) -> (length (sb c) < 4)%nat ->
  exists c' k' out, pipeStep dst src space c k Flush = Some (c', k', out) /\ db c' = [] /\ sb c' = snd (St true before) /\ enc (fst (St true before)) = enc (fst (St false before)) ++ out.
Proof.
  intros Hb Hd Hs Hl. destruct (St_app true [] ltac:(constructor) before Hb) as (A1 & A2). pose proof (St_ok false before Hb) as Ho. rewrite app_nil_r in A1, A2. rewrite A1, A2 in *. rewrite <- Hs in *.
  unfold pipeStep. destruct (St true (sb c ++ [])) as [ps pd] eqn:E. cbn [fst snd] in *. pose proof (enough_ok true c [] Ho ltac:(constructor)) as En. rewrite E in En. cbn [fst] in En.
  destruct (writeTo_ok true (enough c []) c k [] ps pd) as (c' & k' & s' & W1 & W2 & W3 & W4 & W5 & W6 & n & W7); try assumption.
  - constructor.
  - left. reflexivity.
  - discriminate.
  - rewrite W1. exists c', k', (db c ++ enc ps). split; [reflexivity|]. split; [exact W2|]. split.
    + rewrite skipn_nil in W7. rewrite W7, app_nil_r in W3. exact W3.
    + rewrite Hd, enc_app. reflexivity.
Qed.

Lemma bytes_ok_concat_app (a b : list (list Z)) : bytes_ok (concat (a ++ b)) -> bytes_ok (concat a) /\ bytes_ok (concat b).
Proof. rewrite concat_app. intros H. apply Forall_app in H. exact H. Qed.
Lemma pieces_ok os : forall pieces before c k, bytes_ok before -> bytes_ok (concat pieces) -> db c = [] -> sb c = snd (St false before) ->
  (length (snd (St false (before ++ concat pieces))) < 4)%nat -> snd (St true (before ++ concat pieces)) = [] ->
  (forall a p b, pieces = a ++ p :: b -> p = [] \/ (length (snd (St false (before ++ concat a ++ p))) <= length p)%nat) ->
  exists k' out, enc (fst (St true (before ++ concat pieces))) = enc (fst (St false before)) ++ out /\
    pipeRun dst src space c k (map Write pieces ++ Flush :: os) = match pipeRun dst src space (mkc [] []) k' os with Some o => Some (out ++ o) | None => None end.
Proof.
  induction pieces as [|p pieces IH]; intros before c k Hb Hp Hd Hs Hl Hw Hc.
  - cbn [concat map app] in *. rewrite app_nil_r in *. cbn [pipeRun]. rewrite <- Hs in Hl. destruct (flush_ok before c k Hb Hd Hs Hl) as (c' & k' & out & -> & W2 & W3 & W4). exists k', out. split; [exact W4|]. rewrite Hw in W3. destruct c' as [sb' db']. cbn [sb db] in W2, W3. subst. reflexivity.
  - cbn [concat map app pipeRun] in *. apply Forall_app in Hp. destruct Hp as (Hp1 & Hp2). rewrite app_assoc in Hl, Hw.
    assert (Hl' : (length (snd (St false (before ++ p))) < 4)%nat) by (apply (St_prefix (concat pieces) Hp2); [apply ok_app; assumption|exact Hl]).
    destruct (write_ok before p c k Hb Hp1 Hd Hs Hl') as (c' & k' & out & -> & W2 & W3 & W4).
    { destruct (Hc [] p pieces eq_refl) as [H|H]; [left; exact H|right; exact H]. }
    destruct (IH (before ++ p) c' k') as (k2 & out2 & E1 & ->); try assumption; [apply ok_app; assumption| |].
    { intros a q b E. destruct (Hc (p :: a) q b) as [H|H]; [rewrite E; reflexivity|left; exact H|right]. cbn [concat] in H. rewrite <- app_assoc in H. rewrite <- app_assoc. exact H. }
    exists k2, (out ++ out2). split; [rewrite (app_assoc before p), E1, W4, <- app_assoc; reflexivity|]. destruct (pipeRun dst src space (mkc [] []) k2 os); [rewrite app_assoc; reflexivity|reflexivity].
Qed.
Lemma oneshot_ok text : bytes_ok text -> convertText dst src space text = Some (enc (fst (St true text))).
Proof.
  intros H. unfold convertText. destruct (St true text) as [ps pd] eqn:E. pose proof (enough_ok true (mkc [] []) text ltac:(constructor) H) as En. cbn [sb db app] in En. rewrite E in En. cbn [fst] in *.
  destruct (writeTo_ok true (enough (mkc [] []) text) (mkc [] []) 0 text ps pd) as (c' & k' & s' & -> & _); cbn [sb db length app] in *; try assumption; try lia; try discriminate; [constructor|right; left; reflexivity|reflexivity].
Qed.
End Writing.

(* ---- reading ---- *)
Section Reading.
Context (inp : input) (offer : nat -> nat).
Definition RInv (c : conv) (todo : list Z) : Prop :=
  (length (sb c) < 4)%nat /\ bytes_ok (sb c) /\ bytes_ok todo /\ snd (St true (sb c ++ todo)) = [] /\ (ended inp todo = false -> (length (snd (St false (sb c ++ todo))) < 4)%nat) /\ (inp = ViewIn -> sb c = [] \/ todo = []).
Definition due (c : conv) (todo : list Z) : list Z := db c ++ enc (fst (St true (sb c ++ todo))).

Lemma ended_all k todo : ended inp todo = true -> offered inp offer k todo = todo.
Proof. unfold ended, offered. destruct inp; [reflexivity|]. intros H. apply firstn_all2. lia. Qed.
Lemma offered_split k todo : exists rest, todo = offered inp offer k todo ++ rest /\ skipn (length (offered inp offer k todo)) todo = rest.
Proof.
  unfold offered. destruct inp; [exists []; rewrite app_nil_r; split; [reflexivity|apply skipn_all]|]. set (m := Nat.max 4 (offer k)). exists (skipn m todo). split; [symmetry; apply firstn_skipn|].
  rewrite firstn_length. destruct (Nat.le_gt_cases m (length todo)); [rewrite Nat.min_l by lia; reflexivity|]. rewrite Nat.min_r by lia. rewrite skipn_all, skipn_all2 by lia. reflexivity.
Qed.

Lemma readFrom_ok room : (0 < room)%nat -> forall fuel c k todo, (length todo + 1 < fuel)%nat -> RInv c todo ->
  exists c' k' todo' out, readFrom dst src inp offer fuel c k todo room = Some (c', k', todo', out) /\ RInv c' todo' /\ due c todo = out ++ due c' todo' /\ (out = [] -> due c todo = []) /\ (length out <= room)%nat.
Proof.
  intros Hr. induction fuel as [|fuel IH]; intros c k todo Hf (I1 & I2 & I3 & I4 & I5 & I6); [lia|]. cbn [readFrom].
  destruct (ended inp todo) eqn:En.
  - rewrite (ended_all k todo En). destruct (St true (sb c ++ todo)) as [ps pd] eqn:E. cbn [snd] in I4. subst pd.
    destruct (convert_ok true c todo room ps []) as (c' & s' & out & ps1 & ps2 & C & Hout & R2 & R3 & R4 & R5 & R6 & R7 & R8 & n & R9); try assumption; [right; right; cbn; lia|discriminate|].
    rewrite C. rewrite skipn_all, app_nil_r.
    assert (Inv : RInv c' s').
    { split; [exact R6|]. split; [exact R7|]. split; [rewrite R9; apply ok_skipn, I3|]. split; [rewrite R4; reflexivity|]. split.
      - intros B. exfalso. assert (length s' <= length todo)%nat by (rewrite R9, skipn_length; lia). unfold ended in *. destruct inp; lia.
      - intros Hi. unfold ended in En. rewrite Hi in En. right. rewrite R9. destruct todo; [apply skipn_nil|discriminate]. }
    assert (Due : due c todo = out ++ due c' s') by (unfold due; rewrite E, R4; cbn [fst]; rewrite R2, enc_app, !app_assoc, R3; reflexivity).
    destruct out as [|o out].
    + destruct (R5 ltac:(cbn; lia)) as (E1 & E2 & E3 & _). apply app_eq_nil in E3. destruct E3 as (E3 & E4). rewrite E4. cbn [length Nat.eqb]. exists c', (Datatypes.S k), [], []. split; [reflexivity|]. rewrite E4 in Inv, Due. split; [exact Inv|]. split; [exact Due|]. split; [|cbn; lia]. intros _. rewrite Due. unfold due. rewrite E1, E3. reflexivity.
    + exists c', (Datatypes.S k), s', (o :: out). split; [reflexivity|]. split; [exact Inv|]. split; [exact Due|]. split; [discriminate|exact Hout].
  - specialize (I5 eq_refl). destruct (offered_split k todo) as (rest & Es & ->). set (v := offered inp offer k todo) in *.
    assert (Hv : bytes_ok v /\ bytes_ok rest) by (rewrite Es in I3; apply Forall_app in I3; exact I3). destruct Hv as (Hv & Hrest).
    pose proof (ok_app _ _ I2 Hv) as Hbv.
    assert (Tot : sb c ++ todo = (sb c ++ v) ++ rest) by (rewrite <- app_assoc, <- Es; reflexivity). rewrite Tot in I4, I5.
    pose proof (St_prefix rest Hrest _ Hbv I5) as Hl. destruct (St_app true rest Hrest _ Hbv) as (A1 & A2). destruct (St_app false rest Hrest _ Hbv) as (B1 & B2).
    destruct (St false (sb c ++ v)) as [ps pd] eqn:E. cbn [fst snd] in *.
    destruct (convert_ok false c v room ps pd) as (c' & s' & out & ps1 & ps2 & C & Hout & R2 & R3 & R4 & R5 & R6 & R7 & R8 & n & R9); try assumption.
    { unfold v, offered, ended in *. destruct inp eqn:Ei; [destruct (I6 eq_refl) as [H|H]; [right; left; exact H|left; exact H]|]. right. right. rewrite firstn_length. lia. }
    { intros _. exact Hl. }
    rewrite C.
    assert (Hs' : bytes_ok s') by (rewrite R9; apply ok_skipn, Hv). pose proof (ok_app _ _ R7 Hs') as Hbs.
    destruct (St_app true rest Hrest _ Hbs) as (A3 & A4). destruct (St_app false rest Hrest _ Hbs) as (B3 & B4). rewrite R4 in A3, A4, B3, B4. cbn [fst snd] in *.
    assert (Inv : RInv c' (s' ++ rest)).
    { split; [exact R6|]. split; [exact R7|]. split; [apply ok_app; assumption|]. rewrite app_assoc. split; [rewrite A4, <- A2; exact I4|]. split; [intros _; rewrite B4, <- B2; exact I5|].
      intros Hi. destruct (sb c') as [|x y] eqn:Ec; [left; reflexivity|right]. assert (rest = []) as ->. { unfold v, offered in Es. rewrite Hi in Es. rewrite <- (app_nil_r todo) in Es at 1. apply app_inv_head in Es. symmetry. exact Es. }
      rewrite app_nil_r. destruct (R8 ltac:(discriminate)) as [|(_ & Hb)]; [assumption|]. destruct (I6 Hi) as [|Ht]; [contradiction|]. unfold ended in En. rewrite Hi, Ht in En. discriminate. }
    assert (Due : due c todo = out ++ due c' (s' ++ rest)) by (unfold due; rewrite Tot, (app_assoc (sb c')), A1, A3, R2, !enc_app, !app_assoc, R3; reflexivity).
    destruct out as [|o out].
    + destruct (R5 ltac:(cbn; lia)) as (E1 & E2 & E3 & E4). rewrite (E4 eq_refl) in *. cbn [app] in *.
      destruct (IH c' (Datatypes.S k) rest) as (c2 & k2 & todo2 & out2 & W1 & W2 & W3 & W4 & W5); [|exact Inv|].
      * assert (length todo = length v + length rest)%nat by (rewrite Es at 1; apply app_length). assert (0 < length v)%nat; [|lia]. unfold v, offered, ended in *. destruct inp; [lia|]. rewrite firstn_length. lia.
      * exists c2, k2, todo2, out2. split; [exact W1|]. split; [exact W2|]. split; [rewrite Due; exact W3|]. split; [rewrite Due; exact W4|exact W5].
    + exists c', (Datatypes.S k), (s' ++ rest), (o :: out). split; [reflexivity|]. split; [exact Inv|]. split; [exact Due|]. split; [discriminate|exact Hout].
Qed.
Lemma reads_ok : forall rooms c k todo, Forall (fun r => 0 < r)%nat rooms -> RInv c todo ->
  exists outs rest, reads dst src inp offer c k todo rooms = Some outs /\ due c todo = concat outs ++ rest /\ (In [] outs -> rest = []) /\ Forall2 (fun out room => (length out <= room)%nat) outs rooms.
Proof.
  induction rooms as [|r rooms IH]; intros c k todo Hr I; cbn [reads].
  - exists [], (due c todo). repeat split; [intros []|constructor].
  - inversion Hr as [|x y Hr1 Hr2]; subst. destruct (readFrom_ok r Hr1 (Datatypes.S (Datatypes.S (length todo))) c k todo ltac:(lia) I) as (c' & k' & todo' & out & -> & I' & D & E & L).
    destruct (IH c' k' todo' Hr2 I') as (outs & rest & -> & D' & E' & F). exists (out :: outs), rest. split; [reflexivity|]. cbn [concat]. split; [rewrite D, D', app_assoc; reflexivity|]. split; [|constructor; assumption].
    intros [H|H]; [|apply E', H]. specialize (E H). rewrite D, D' in E. apply app_eq_nil in E. destruct E as (_ & E). apply app_eq_nil in E. apply E.
Qed.
End Reading.
End Conv.

(* ---- the known encodings ---- *)
Lemma known_P1 e : known e -> forall v, bytes_ok v -> 0 <= point (decode e v) <-> (0 < nbytes (decode e v))%nat.
Proof.
  intros [-> |[-> |(be & ->)]] v Hv; cbn [decode Enc_Bytes Enc_UTF8 Enc_UTF16]; [|apply (utf8_progress v Hv)|apply (utf16_progress be v Hv)].
  destruct v as [|b v]; cbn; [lia|]. inversion Hv; subst. unfold is_byte in *. lia.
Qed.
Lemma known_P2 e : known e -> forall v, bytes_ok v -> (nbytes (decode e v) <= length v)%nat.
Proof.
  intros [-> |[-> |(be & ->)]] v Hv; cbn [decode Enc_Bytes Enc_UTF8 Enc_UTF16]; [|apply (utf8_progress v Hv)|apply (utf16_progress be v Hv)].
  destruct v as [|b v]; cbn; lia.
Qed.
Lemma known_P3 e : known e -> forall v, bytes_ok v -> stat (decode e v) <> Truncated -> 0 <= point (decode e v).
Proof.
  intros K v Hv S. destruct K as [-> |[-> |(be & ->)]]; cbn [decode Enc_Bytes Enc_UTF8 Enc_UTF16] in *.
  - destruct v as [|b v]; [contradiction S; reflexivity|]. inversion Hv; subst. unfold is_byte in *. cbn. lia.
  - destruct (utf8_progress v Hv) as (A & _ & B). apply A. destruct v; [contradiction S; reflexivity|]. destruct (nbytes _); [|lia]. discriminate (proj1 B eq_refl).
  - destruct (utf16_progress be v Hv) as (A & _ & B & _). apply A. destruct v as [|x [|y v]]; try (contradiction S; reflexivity). destruct (nbytes _); [|lia]. pose proof (proj1 B eq_refl) as B'. cbn [length] in B'. lia.
Qed.
Lemma utf16_ext be v w : stat (utf16_decode be v) <> Truncated -> utf16_decode be (v ++ w) = utf16_decode be v.
Proof.
  intros S. destruct v as [|a [|b v]]; try (contradiction S; reflexivity). cbn [app utf16_decode] in *. destruct (_ && _); [|reflexivity]. destruct v as [|c [|d v]]; try (contradiction S; reflexivity). reflexivity.
Qed.
Lemma known_P4 e : known e -> forall v w, bytes_ok v -> stat (decode e v) <> Truncated -> decode e (v ++ w) = decode e v.
Proof.
  intros [-> |[-> |(be & ->)]] v w Hv S; cbn [decode Enc_Bytes Enc_UTF8 Enc_UTF16] in *; [|apply utf8_decode_ext; assumption|apply utf16_ext, S].
  destruct v; [contradiction S|]; reflexivity.
Qed.
Lemma known_P5 e : known e -> forall v, decode e (firstn 4 v) = decode e v.
Proof.
  intros [-> |[-> |(be & ->)]] v; cbn [decode Enc_Bytes Enc_UTF8 Enc_UTF16]; destruct v as [|a [|b [|c [|d v]]]]; reflexivity.
Qed.
Lemma known_P7 e : known e -> forall v w, stat (decode e v) = Truncated -> (4 <= length v)%nat -> stat (decode e (v ++ w)) = Truncated.
Proof.
  intros [-> |[-> |(be & ->)]] v w; cbn [decode Enc_Bytes Enc_UTF8 Enc_UTF16]; destruct v as [|a [|b [|c [|d v]]]]; cbn [length]; intros S H; try lia.
  - discriminate.
  - exact S.
  - cbn [app utf16_decode] in *. exact S.
Qed.
Lemma known_Pd e : known e -> forall p, (1 <= length (encode e p) <= 4)%nat.
Proof.
  intros [-> |[-> |(be & ->)]] p; cbn [encode Enc_Bytes Enc_UTF8 Enc_UTF16].
  - unfold bytes_encode. destruct (_ <? _); cbn; lia.
  - rewrite utf8_encode_length. apply utf8_numBytes_range.
  - unfold utf16_encode. assert (L : forall u, length (put_unit be u) = 2%nat) by (intros u; destruct be; reflexivity). destruct (_ <? _); [rewrite L; lia|]. rewrite app_length, !L. lia.
Qed.
Lemma pending_St e : known e -> forall v, bytes_ok v -> pending e v = snd (St e false v).
Proof.
  intros K v. unfold pending, St. generalize (length v) as n. intros n. revert v. induction n as [|n IH]; intros v Hv; [destruct v; reflexivity|]. destruct v as [|b v]; [reflexivity|]. cbn [pendingOf settle]. rewrite stops_false_iff. unfold isTruncated.
  destruct (stat (decode e (b :: v))) eqn:E; [reflexivity| |]; rewrite (IH _ (ok_skipn _ _ Hv)); destruct (settle _ _ _ _); reflexivity.
Qed.
Lemma points_St e : known e -> forall v, bytes_ok v -> pointsOf (length v) e v = St e true v.
Proof.
  intros K v. unfold St. generalize (length v) as n. intros n. revert v. induction n as [|n IH]; intros v Hv; [destruct v; reflexivity|]. destruct v as [|b v]; [reflexivity|]. cbn [pointsOf settle].
  assert (E : stops true (decode e (b :: v)) = (point (decode e (b :: v)) <? 0)).
  { unfold stops. cbn [andb]. destruct (isTruncated (decode e (b :: v))) eqn:T; cbn [andb]; [destruct (Z.ltb_spec (point (decode e (b :: v))) 0); destruct (Z.leb_spec 0 (point (decode e (b :: v)))); try reflexivity; lia|].
    apply isTruncated_false in T. pose proof (known_P3 e K _ Hv T). symmetry. lia. }
  rewrite E. destruct (_ <? 0); [reflexivity|]. rewrite (IH _ (ok_skipn _ _ Hv)). reflexivity.
Qed.

Theorem pieces_right dst src space sessions : known dst -> known src -> (forall k, (0 < space k)%nat) ->
  Forall (fun pieces => bytes_ok (concat pieces) /\ (length (pending src (concat pieces)) < 4)%nat /\ whole src (concat pieces) /\ cutsOk src pieces) sessions ->
  piped dst src space (flat_map session sessions) = Some (flat_map (fun pieces => encoded dst (points src (concat pieces))) sessions).
Proof.
  intros Kd Ks Hsp. unfold piped. intros H. enough (G : forall k, pipeRun dst src space (mkc [] []) k (flat_map session sessions) = Some (flat_map (fun pieces => encoded dst (points src (concat pieces))) sessions)) by apply G. induction H as [|pieces sessions (H1 & H2 & H3 & H4) _ IH]; intros k; [reflexivity|]. cbn [flat_map]. unfold session at 1. rewrite <- app_assoc. cbn [app].
  rewrite (pending_St _ Ks) in H2 by exact H1. unfold whole in H3. rewrite (points_St _ Ks) in H3 by exact H1.
  destruct (pieces_ok dst src (known_P1 _ Ks) (known_P2 _ Ks) (known_P3 _ Ks) (known_P4 _ Ks) (known_P5 _ Ks) (known_P7 _ Ks) (known_Pd _ Kd) space Hsp (flat_map session sessions) pieces [] (mkc [] []) k ltac:(constructor) H1 eq_refl eq_refl H2 H3) as (k' & out & E1 & E2).
  - intros a p b E. destruct (H4 a p b E) as [|L]; [left; assumption|right]. rewrite (pending_St _ Ks) in L; [exact L|]. rewrite E in H1. rewrite concat_app in H1. cbn [concat] in H1. rewrite app_assoc in H1. apply Forall_app in H1. apply H1.
  - rewrite E2, IH. unfold points. rewrite (points_St _ Ks) by exact H1. cbn [app] in E1. unfold enc in E1. rewrite E1. reflexivity.
Qed.
Theorem oneshot_right dst src space text : known dst -> known src -> (forall k, (0 < space k)%nat) -> bytes_ok text -> convertText dst src space text = Some (encoded dst (points src text)).
Proof.
  intros Kd Ks Hsp H. unfold points. rewrite (points_St _ Ks) by exact H.
  eapply oneshot_ok; try exact H; try exact Hsp; first [apply known_P1|apply known_P2|apply known_P3|apply known_P4|apply known_P5|apply known_P7|apply known_Pd]; assumption.
Qed.
Theorem read_right dst src inp offer text rooms : known dst -> known src -> bytes_ok text -> whole src text -> (length (pending src text) < 4)%nat -> Forall (fun r => 0 < r)%nat rooms ->
  exists outs rest, readAll dst src inp offer text rooms = Some outs /\ encoded dst (points src text) = concat outs ++ rest /\ (In [] outs -> rest = []) /\ Forall2 (fun out room => (length out <= room)%nat) outs rooms.
Proof.
  intros Kd Ks Ht Hw Hl Hr. unfold readAll. unfold whole in Hw. rewrite (points_St _ Ks) in Hw by exact Ht. rewrite (pending_St _ Ks) in Hl by exact Ht.
  destruct (reads_ok dst src (known_P1 _ Ks) (known_P2 _ Ks) (known_P3 _ Ks) (known_P4 _ Ks) (known_P5 _ Ks) (known_P7 _ Ks) (known_Pd _ Kd) inp offer rooms (mkc [] []) 0 text Hr) as (outs & rest & R1 & R2 & R3).
  - unfold RInv. cbn [sb app]. split; [cbn; lia|]. split; [constructor|]. split; [exact Ht|]. split; [exact Hw|]. split; [intros _; exact Hl|]. intros _. left. reflexivity.
  - exists outs, rest. split; [exact R1|]. split; [|exact R3]. rewrite <- R2. unfold due, enc, points. cbn [db sb app]. rewrite (points_St _ Ks) by exact Ht. reflexivity.
Qed.

(* ---- well-formed texts ---- *)
Lemma known_roundtrip e p rest : known e -> fits e p -> decode e (encode e p ++ rest) = {| point := p; stat := Valid; nbytes := length (encode e p) |}.
Proof.
  intros [-> |[-> |(be & ->)]] (Hs & Hb); cbn [decode encode Enc_Bytes Enc_UTF8 Enc_UTF16].
  - specialize (Hb eq_refl). unfold bytes_encode. replace (p <? 256) with true by lia. cbn. unfold scalar in Hs. unfold u8. rewrite Z.mod_small by lia. reflexivity.
  - apply utf8_roundtrip. unfold scalar in Hs. lia.
  - apply utf16_roundtrip, Hs.
Qed.
Lemma known_bytes e p : known e -> fits e p -> bytes_ok (encode e p).
Proof.
  intros [-> |[-> |(be & ->)]] (Hs & Hb); cbn [encode Enc_Bytes Enc_UTF8 Enc_UTF16].
  - unfold bytes_encode. destruct (_ <? _); repeat constructor; unfold is_byte, u8; lia.
  - apply utf8_encode_bytes.
  - unfold scalar in Hs. rewrite utf16_encode_layout by lia. unfold utf16_layout. destruct (_ <? _) eqn:E; [apply unit_bytes_ok; lia|]. apply Forall_app. split; apply unit_bytes_ok; lia.
Qed.
Lemma text_bytes e ps : known e -> Forall (fits e) ps -> bytes_ok (encoded e ps).
Proof. intros K. induction 1 as [|p ps Hp _ IH]; [constructor|]. apply Forall_app. split; [apply known_bytes; assumption|exact IH]. Qed.
Lemma text_St e ps flush : known e -> Forall (fits e) ps -> St e flush (encoded e ps) = (ps, []).
Proof.
  intros K. induction 1 as [|p ps Hp Hps IH]; [reflexivity|]. cbn [encoded flat_map]. pose proof (known_roundtrip e p (encoded e ps) K Hp) as R. unfold encoded in R.
  rewrite (St_go e e (known_P1 _ K) (known_P2 _ K) (known_P3 _ K) (known_P4 _ K) (known_P5 _ K) (known_P7 _ K) (known_Pd _ K)); [|exact (text_bytes e (p :: ps) K ltac:(constructor; assumption))|rewrite R; reflexivity].
  rewrite R. cbn [point nbytes]. rewrite skipn_app, skipn_all, Nat.sub_diag. cbn [skipn app]. unfold encoded in IH. rewrite IH. reflexivity.
Qed.
Lemma text_points e ps : known e -> Forall (fits e) ps -> points e (encoded e ps) = ps /\ whole e (encoded e ps) /\ pending e (encoded e ps) = [].
Proof.
  intros K H. pose proof (text_bytes e ps K H) as B. unfold points, whole. rewrite (points_St e K), (pending_St e K), !(text_St e ps) by assumption. repeat split.
Qed.
Lemma pending_prefix e : known e -> forall v w, bytes_ok v -> bytes_ok w -> (length (pending e (v ++ w)) < 4)%nat -> (length (pending e v) < 4)%nat.
Proof.
  intros K v w Hv Hw. rewrite !(pending_St e K); [|assumption|apply ok_app; assumption]. apply (St_prefix e e (known_P1 _ K) (known_P2 _ K) (known_P3 _ K) (known_P4 _ K) (known_P5 _ K) (known_P7 _ K) (known_Pd _ K) w Hw v Hv).
Qed.
(* every piece but the last has three bytes *)
Lemma cuts_three e pieces l : known e -> bytes_ok (concat (pieces ++ [l])) -> (length (pending e (concat (pieces ++ [l]))) < 4)%nat -> Forall (fun p => (3 <= length p)%nat) pieces ->
  (length (pending e (concat (pieces ++ [l]))) <= length l)%nat -> cutsOk e (pieces ++ [l]).
Proof.
  intros K Hb Hp H3 Hl a p b E. destruct b as [|q b].
  - right. apply app_inj_tail in E. destruct E as (-> & ->). rewrite concat_app in Hl. cbn [concat] in Hl. rewrite app_nil_r in Hl. exact Hl.
  - right. rewrite E in Hb, Hp. rewrite concat_app in Hb, Hp. cbn [concat] in Hb, Hp. rewrite app_assoc in Hb, Hp. apply Forall_app in Hb. pose proof (pending_prefix e K _ _ (proj1 Hb) (proj2 Hb) Hp).
    assert (In p pieces). { assert (In p (removelast (pieces ++ [l]))) by (rewrite E, removelast_app by discriminate; apply in_or_app; right; left; reflexivity). rewrite removelast_last in H0. exact H0. }
    rewrite Forall_forall in H3. specialize (H3 _ H0). lia.
Qed.
Theorem text_pieces dst src space ps pieces l : known dst -> known src -> (forall k, (0 < space k)%nat) -> Forall (fits src) ps -> concat (pieces ++ [l]) = encoded src ps -> Forall (fun p => (3 <= length p)%nat) pieces ->
  piped dst src space (session (pieces ++ [l])) = Some (encoded dst ps).
Proof.
  intros Kd Ks Hsp Hps Ht H3. destruct (text_points src ps Ks Hps) as (T1 & T2 & T3). pose proof (text_bytes src ps Ks Hps) as Tb.
  pose proof (pieces_right dst src space [pieces ++ [l]] Kd Ks Hsp) as R. cbn [flat_map] in R. rewrite !app_nil_r, Ht, T1 in R. apply R. constructor; [|constructor]. rewrite !Ht. split; [exact Tb|]. split; [rewrite T3; cbn; lia|]. split; [exact T2|].
  apply cuts_three; try assumption; rewrite ?Ht; [assumption|rewrite T3; cbn; lia|rewrite T3; cbn; lia].
Qed.
Theorem text_oneshot dst src space ps : known dst -> known src -> (forall k, (0 < space k)%nat) -> Forall (fits src) ps -> convertText dst src space (encoded src ps) = Some (encoded dst ps).
Proof. intros Kd Ks Hsp Hps. rewrite (oneshot_right dst src space _ Kd Ks Hsp (text_bytes src ps Ks Hps)). rewrite (proj1 (text_points src ps Ks Hps)). reflexivity. Qed.
Lemma utf16_pending e text : known e -> e <> Enc_UTF8 -> bytes_ok text -> (length (pending e text) < 4)%nat.
Proof.
  intros K Hn Hb. rewrite (pending_St e K) by exact Hb. revert text Hb. apply (St_ind e e (known_P1 _ K) (known_P2 _ K) (known_P3 _ K) (known_P4 _ K) (known_P5 _ K) (known_P7 _ K) (known_Pd _ K) (fun v => (length (snd (St e false v)) < 4)%nat) false).
  - intros v Hv S. rewrite (St_stop e _ _ S). cbn [snd]. rewrite stops_false_iff in S. apply isTruncated_iff in S. destruct K as [-> |[-> |(be & ->)]]; [|contradiction Hn; reflexivity|].
    + destruct v; [cbn; lia|discriminate].
    + apply (utf16_progress be v Hv), S.
  - intros v Hv S IH. rewrite (St_go e e (known_P1 _ K) (known_P2 _ K) (known_P3 _ K) (known_P4 _ K) (known_P5 _ K) (known_P7 _ K) (known_Pd _ K) _ _ Hv S). exact IH.
Qed.
