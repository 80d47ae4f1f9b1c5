(* Proofs about text files: loading. *)
From Coq Require Import Lia ZifyBool ZifyNat.
From Verif Require Import NewLineProofs TextConvProofs TextFormatSpec InStreamSpec InStreamProofs TextFormatProofs.

Lemma skip_rest {A} (v r l : list A) m : r = skipn m v -> skipn (Z.to_nat (zlen v - zlen r)) (v ++ l) = r ++ l.
Proof.
  intros ->. unfold zlen. rewrite skipn_length. replace (Z.to_nat (Z.of_nat (length v) - Z.of_nat (length v - m))) with (Nat.min m (length v)) by lia.
  rewrite skipn_app. replace (Nat.min m (length v) - length v)%nat with 0%nat by lia. cbn [skipn]. f_equal. destruct (Nat.le_gt_cases m (length v)); [rewrite Nat.min_l by lia; reflexivity|]. rewrite Nat.min_r by lia. rewrite skipn_all, skipn_all2 by lia. reflexivity.
Qed.

Section Reading.
Context (cut : nat -> nat) (blk : Z) (file : list Z).
Hypothesis (Hblk : 100 < blk < 2 ^ 32) (Hsrc : zlen file < 2 ^ 63).
Notation Inv := (Inv blk file).
Notation left u := (rest file (at_ u)).

(* ---- the newline filter ---- *)
Lemma filterRead_ok room : (0 < room)%nat -> forall fuel s u, Inv s u -> closed u = false -> (length (left u) + (match view s with [] => 1 | _ => 0 end) < fuel)%nat ->
  exists s' u' out, filterRead cut blk fuel false s room = Some (false, s', out) /\ Inv s' u' /\ closed u' = false /\ (length (left u') <= length (left u))%nat /\
    newlines false (left u) = out ++ newlines false (left u') /\ (out = [] -> newlines false (left u) = []).
Proof.
  intros Hr. induction fuel as [|fuel IH]; intros s u I Hc Hf; [lia|]. cbn [filterRead]. replace (room =? 0)%nat with false by lia. pose proof (Inv_left cut blk file Hblk _ _ I) as Hl.
  destruct (Inv_view cut blk file Hblk s u I) as ((l & Vp) & _). pose proof (process_ok false room false (view s)) as P. destruct (NewLineModel.process false room false (view s)) as [[n' r] out] eqn:Ep.
  assert (Sk : exists m, r = skipn m (view s)).
  { clear - Ep. revert Ep. generalize false at 2 as n. generalize (view s) as v. revert n' r out. induction room as [|room IH]; intros n' r out v n; cbn [NewLineModel.process]; [intros [= <- <- <-]; exists 0%nat; reflexivity|].
    destruct n. { destruct (NewLineModel.process false room false v) as [[n1 s1] o1] eqn:E. intros [= <- <- <-]. exact (IH _ _ _ _ _ E). }
    pose proof (nextByte_ok false v) as N. destruct (NewLineModel.nextByte v) as [s1 [c|]]; [|intros [= <- <- <-]; destruct N as (-> & _); exists (length v); symmetry; apply skipn_all].
    destruct N as (_ & _ & _ & m & ->). rewrite andb_false_r. destruct (NewLineModel.process false room false (skipn m v)) as [[n1 s1] o1] eqn:E. intros [= <- <- <-]. destruct (IH _ _ _ _ _ E) as (m' & ->). exists (m' + m)%nat. apply skipn_skipn. }
  destruct P as (P1 & P2 & P3 & P4 & P5 & P6 & P7 & P8). rewrite (P8 eq_refl eq_refl) in *. cbn [lf app] in P1.
  assert (I1 : Inv (advance s (zlen (view s) - zlen r)) (moved u (zlen (view s) - zlen r))) by (apply (Inv_advance cut); [exact Hblk|exact I|unfold zlen; lia]).
  assert (L1 : left (moved u (zlen (view s) - zlen r)) = r ++ l).
  { cbn [moved at_]. rewrite rest_moved by (unfold zlen; lia). rewrite Vp. destruct Sk as (m & Er). apply (skip_rest _ _ _ m Er). }
  set (s1 := advance s (zlen (view s) - zlen r)) in *. set (u1 := moved u (zlen (view s) - zlen r)) in *. assert (C1 : closed u1 = false) by exact Hc. clearbody s1 u1.
  assert (Lu : length (left u) = (length (view s) + length l)%nat) by (rewrite Vp; apply app_length). assert (Lu1 : length (left u1) = (length r + length l)%nat) by (rewrite L1; apply app_length).
  assert (Nl : newlines false (left u) = out ++ newlines false (left u1)). { rewrite L1, Vp, !newlines_app, P1, app_assoc. reflexivity. }
  destruct out as [|o out].
  - destruct (P4 ltac:(cbn; lia)) as (_ & ->). cbn [app] in *. destruct (tryMake_ok cut blk file Hblk Hsrc s1 u1 1 I1 ltac:(split; [lia|pose proof (Z.mod_pos_bound (at_ u1) blk ltac:(lia)); lia])) as (s2 & c & e2 & -> & I2 & D).
    destruct (Z.eqb_spec c 0) as [E0|Hc0].
    + exists s2, (withEnd u1 e2), []. split; [reflexivity|]. split; [exact I2|]. split; [exact C1|]. cbn [withEnd at_]. split; [lia|]. split; [exact Nl|]. intros _. rewrite Nl.
      destruct D as [D|(D1 & D2 & D3 & _)]; [lia|]. rewrite <- D3. assert (view s2 = []) as -> by (destruct (view s2); [reflexivity|unfold zlen in *; cbn [length] in *; lia]). reflexivity.
    + assert (V2 : view s2 <> []) by (intros E; rewrite E in D; unfold zlen in D; cbn in D; lia).
      destruct (IH s2 (withEnd u1 e2) I2 C1) as (s3 & u3 & out & A1 & A2 & A3 & A4 & A5 & A6); [cbn [withEnd at_]; destruct (view s2); [contradiction|]; destruct (view s); cbn [length] in *; lia|].
      cbn [withEnd at_] in *. exists s3, u3, out. split; [exact A1|]. split; [exact A2|]. split; [exact A3|]. split; [lia|]. split; [congruence|]. intros E. rewrite Nl. apply A6, E.
  - exists s1, u1, (o :: out). split; [reflexivity|]. split; [exact I1|]. split; [exact C1|]. split; [lia|]. split; [exact Nl|discriminate].
Qed.
Lemma filterAll_ok rooms fuel : (forall k, (0 < rooms k)%nat) -> (S (length file) < fuel)%nat -> forall turns s u k, Inv s u -> closed u = false -> (length (newlines false (left u)) < turns)%nat ->
  filterAll cut blk fuel turns false s rooms k = Some (newlines false (left u)).
Proof.
  intros Hr Hf. induction turns as [|turns IH]; intros s u k I Hc Ht; [lia|]. cbn [filterAll]. destruct (filterRead_ok (rooms k) (Hr k) fuel s u I Hc) as (s' & u' & out & -> & I' & Hc' & _ & E & En).
  { unfold rest. rewrite skipn_length. destruct (view s); lia. }
  destruct out as [|o out]; [rewrite (En eq_refl); reflexivity|]. rewrite E in Ht. rewrite app_length in Ht. cbn [length] in Ht. rewrite (IH s' u' (S k) I' Hc') by lia. rewrite E. reflexivity.
Qed.
Lemma newlines_length l : (length (newlines false l) <= length l)%nat.
Proof. induction l as [|c l IH]; [reflexivity|]. cbn [newlines flat_map]. fold (newlines false l). rewrite app_length. destruct (c =? 13); [cbn [length]; lia|]. destruct (c =? 10); cbn [length]; lia. Qed.

(* ---- the converter ---- *)
Context (e : encoding).
Hypothesis (K : known e) (Hfile : bytes_ok file) (Hfit : zlen file + 4 <= blk).
Notation St := (St e).
Notation conv_ok := (convert_ok Enc_UTF8 e (known_P1 e K) (known_P2 e K) (known_P3 e K) (known_P4 e K) (known_P5 e K) (known_P7 e K) (known_Pd _ known_8)).
Notation app_ok := (St_app Enc_UTF8 e (known_P1 e K) (known_P2 e K) (known_P3 e K) (known_P4 e K) (known_P5 e K) (known_P7 e K) (known_Pd _ known_8)).
Notation prefix_ok := (St_prefix Enc_UTF8 e (known_P1 e K) (known_P2 e K) (known_P3 e K) (known_P4 e K) (known_P5 e K) (known_P7 e K) (known_Pd _ known_8)).
Record CInv (c : conv) (s : stream) (u : user) : Prop := {
  ci_inv : Inv s u; ci_open : closed u = false; ci_end : ended u = true -> zlen (left u) < 4;
  ci_sb : (length (sb c) < 4)%nat; ci_ok : bytes_ok (sb c);
  ci_whole : snd (St true (sb c ++ left u)) = []; ci_pend : 4 <= zlen (left u) -> (length (snd (St false (sb c ++ left u))) < 4)%nat }.
Definition owed (c : conv) (u : user) : list Z := db c ++ encoded Enc_UTF8 (fst (St true (sb c ++ left u))).

Lemma convRead_ok room : (0 < room)%nat -> forall fuel c s u, CInv c s u -> (length (left u) < fuel)%nat ->
  exists c' s' u' out, convRead cut blk fuel e c s room = Some (c', s', out) /\ CInv c' s' u' /\ owed c u = out ++ owed c' u' /\ (out = [] -> owed c u = []).
Proof.
  intros Hr. induction fuel as [|fuel IH]; intros c s u [I Hc He C1 C2 C3 C4] Hf; [lia|]. cbn [convRead]. pose proof (Inv_left cut blk file Hblk _ _ I) as Hl.
  destruct (tryMake_ok cut blk file Hblk Hsrc s u 4 I) as (s1 & n & e1 & -> & I1 & D). { split; [lia|]. rewrite Z.mod_small by lia. lia. }
  destruct (Inv_view cut blk file Hblk s1 _ I1) as ((l & Vp) & _ & _ & Eo). cbn [withEnd at_ ended] in Vp, Eo. rewrite Eo.
  assert (R : bytes_ok (left u)) by exact (bytes_rest _ _ Hfile). assert (Hv : bytes_ok (view s1) /\ bytes_ok l) by (rewrite Vp in R; apply Forall_app in R; exact R). destruct Hv as (Hv & Hrl).
  assert (Ls : zlen (left u) = zlen (view s1) + zlen l) by (rewrite Vp; apply zlen_app).
  assert (Mv : forall r m, r = skipn m (view s1) -> let d := zlen (view s1) - zlen r in Inv (advance s1 d) (moved (withEnd u e1) d) /\ left (moved (withEnd u e1) d) = r ++ l /\ eof (advance s1 d) = e1).
  { intros r m Er d. assert (0 <= d <= zlen (view s1)) by (unfold d; rewrite Er; unfold zlen; rewrite skipn_length; lia). split; [apply (Inv_advance cut); [exact Hblk|exact I1|assumption]|]. split; [|exact Eo]. cbn [moved withEnd at_]. rewrite rest_moved by lia. rewrite Vp. apply (skip_rest _ _ _ m Er). }
  destruct e1.
  - assert (Hall : view s1 = left u /\ l = [] /\ zlen (left u) < 4).
    { assert (X : view s1 = left u /\ zlen (left u) < 4). { destruct D as [(D & E)|(_ & D1 & D2 & _)]; [exfalso; specialize (He (eq_sym E)); pose proof (zlen_nonneg l); lia|]. rewrite <- D2. tauto. } destruct X as (X1 & X2).
      split; [exact X1|]. split; [|exact X2]. rewrite X1 in Ls. destruct l; [reflexivity|unfold zlen in Ls; cbn [length] in Ls; lia]. }
    destruct Hall as (Ev & -> & H4). clear D. destruct (St true (sb c ++ left u)) as [ps pd] eqn:E. cbn [snd] in C3. subst pd. rewrite <- Ev in E.
    destruct (conv_ok true c (view s1) room ps []) as (c' & r & out & ps1 & ps2 & C & Hout & R2 & R3 & R4 & R5 & R6 & R7 & R8 & m & R9); try assumption; [right; right; cbn; lia|discriminate|].
    rewrite C. destruct (Mv r m R9) as (I2 & L2 & Eo2). rewrite Eo2. rewrite app_nil_r in L2. set (s2 := advance s1 _) in *. set (u2 := moved _ _) in *.
    assert (L2' : zlen r < 4). { rewrite <- Ev in H4. rewrite R9. unfold zlen in *. rewrite skipn_length. lia. }
    assert (CI : CInv c' s2 u2). { constructor; rewrite ?L2; try assumption; [intros _; exact L2'|rewrite R4; reflexivity|lia]. }
    assert (Ow : owed c u = out ++ owed c' u2). { unfold owed. rewrite L2, <- Ev, E, R4. cbn [fst]. rewrite R2. unfold encoded. rewrite flat_map_app, !app_assoc. unfold TextConvProofs.enc, encoded in R3. rewrite R3. reflexivity. }
    destruct out as [|o out].
    + destruct (R5 ltac:(cbn; lia)) as (E1 & E2 & E3 & _). apply app_eq_nil in E3. destruct E3 as (E3 & E4). rewrite E4. exists c', s2, u2, []. split; [reflexivity|]. split; [exact CI|]. split; [exact Ow|]. intros _. rewrite Ow. unfold owed. rewrite E1, E3, L2, E4. reflexivity.
    + exists c', s2, u2, (o :: out). split; [reflexivity|]. split; [exact CI|]. split; [exact Ow|discriminate].
  - assert (D4 : 4 <= zlen (view s1)) by (destruct D as [(D & _)|(_ & _ & _ & D)]; [lia|discriminate]). pose proof (zlen_nonneg l) as Ln. specialize (C4 ltac:(lia)).
    pose proof (ok_app _ _ C2 Hv) as Hbv. assert (Tot : sb c ++ left u = (sb c ++ view s1) ++ l) by (rewrite <- app_assoc, <- Vp; reflexivity). rewrite Tot in C3, C4.
    pose proof (prefix_ok l Hrl _ Hbv C4) as Hp. destruct (app_ok true l Hrl _ Hbv) as (A1 & A2). destruct (app_ok false l Hrl _ Hbv) as (B1 & B2).
    destruct (St false (sb c ++ view s1)) as [ps pd] eqn:E. cbn [fst snd] in *.
    destruct (conv_ok false c (view s1) room ps pd) as (c' & r & out & ps1 & ps2 & C & Hout & R2 & R3 & R4 & R5 & R6 & R7 & R8 & m & R9); try assumption.
    { right. right. unfold zlen in D4. lia. }
    { intros _. exact Hp. }
    rewrite C. destruct (Mv r m R9) as (I2 & L2 & Eo2). rewrite Eo2. set (s2 := advance s1 _) in *. set (u2 := moved _ _) in *.
    assert (Hsr : bytes_ok r) by (rewrite R9; apply ok_skipn, Hv). pose proof (ok_app _ _ R7 Hsr) as Hbs.
    destruct (app_ok true l Hrl _ Hbs) as (A3 & A4). destruct (app_ok false l Hrl _ Hbs) as (B3 & B4). rewrite R4 in A3, A4, B3, B4. cbn [fst snd] in *.
    assert (CI : CInv c' s2 u2). { constructor; rewrite ?L2, ?app_assoc; try assumption; [discriminate|rewrite A4, <- A2; exact C3|intros _; rewrite B4, <- B2; exact C4]. }
    assert (Ow : owed c u = out ++ owed c' u2). { unfold owed. rewrite L2, Tot, (app_assoc (sb c')), A1, A3, R2. unfold encoded. rewrite !flat_map_app, !app_assoc. unfold TextConvProofs.enc, encoded in R3. rewrite R3. reflexivity. }
    destruct out as [|o out].
    + destruct (R5 ltac:(cbn; lia)) as (_ & _ & _ & E4). destruct (IH c' s2 u2 CI) as (c3 & s3 & u3 & out & W1 & W2 & W3 & W4).
      { rewrite L2, (E4 eq_refl). cbn [app]. unfold zlen in *. lia. }
      exists c3, s3, u3, out. split; [exact W1|]. split; [exact W2|]. cbn [app] in Ow. rewrite Ow. split; [exact W3|exact W4].
    + exists c', s2, u2, (o :: out). split; [reflexivity|]. split; [exact CI|]. split; [exact Ow|discriminate].
Qed.
Lemma convAll_ok rooms fuel : (forall k, (0 < rooms k)%nat) -> (length file < fuel)%nat -> forall turns c s u k, CInv c s u -> (length (owed c u) < turns)%nat -> convAll cut blk fuel turns e c s rooms k = Some (owed c u).
Proof.
  intros Hr Hf. induction turns as [|turns IH]; intros c s u k I Ht; [lia|]. cbn [convAll]. destruct (convRead_ok (rooms k) (Hr k) fuel c s u I) as (c' & s' & u' & out & -> & I' & E & En). { unfold rest. rewrite skipn_length. lia. }
  destruct out as [|o out]; [rewrite (En eq_refl); reflexivity|]. rewrite E in Ht. rewrite app_length in Ht. cbn [length] in Ht. rewrite (IH c' s' u' (S k) I') by lia. rewrite E. reflexivity.
Qed.
End Reading.
