From Coq Require Import ZifyBool ZifyNat.
From Verif Require Import Base TextEncodingModel TextEncodingProofs ListUpd FileLocModel FileLocSpec.
Ltac Zify.zify_post_hook ::= Z.div_mod_to_equations.

Section Loc.
Context (text : list Z).
Hypothesis Hb : bytes_ok text.
Hypothesis Hn : zlen text < 2 ^ 26.
Definition rest (ofs : Z) : list Z := skipn (Z.to_nat ofs) text.

Lemma rest_ok ofs : bytes_ok (rest ofs).
Proof. unfold rest, bytes_ok. rewrite <- (firstn_skipn (Z.to_nat ofs) text) in Hb. apply Forall_app in Hb. apply Hb. Qed.
Lemma rest_len ofs : 0 <= ofs <= zlen text -> zlen (rest ofs) = zlen text - ofs.
Proof. intros H. unfold rest, zlen in *. rewrite skipn_length. lia. Qed.
Lemma step_size ofs : 0 <= ofs < zlen text -> let d := utf8_decode (rest ofs) in (0 < nbytes d <= 4)%nat /\ ofs + Z.of_nat (nbytes d) <= zlen text /\ skipn (nbytes d) (rest ofs) = rest (ofs + Z.of_nat (nbytes d)).
Proof.
  intros H d. pose proof (rest_len ofs ltac:(lia)) as L. destruct (utf8_progress (rest ofs) (rest_ok ofs)) as (A & B & C). fold d in A, B, C. assert (nbytes d <> 0)%nat by (rewrite C; intros E; rewrite E in L; cbn in L; lia).
  assert (nbytes d <= 4)%nat. { unfold d. rewrite utf8_decode_arith_eq by apply rest_ok. unfold utf8_decode_arith. destruct (rest ofs) as [|f v]; [cbn; lia|]. repeat match goal with |- context [if ?b then _ else _] => destruct b end; destruct v as [|b0 [|b1 [|b2 v]]]; cbn [nbytes utf8_bad]; repeat match goal with |- context [if ?b then _ else _] => destruct b end; cbn [nbytes utf8_bad]; lia. }
  split; [lia|]. split; [unfold zlen in *; lia|]. unfold rest. rewrite skipn_skipn. f_equal. lia.
Qed.

(* the state of the scan, with bounds *)
Definition sc (ofs : Z) (st : Z * Z * Z) : Prop := let '(line, col, start) := st in scanned text ofs line col start.
Lemma sc_bounds ofs line col start : scanned text ofs line col start -> 0 <= ofs <= zlen text /\ 1 <= line <= ofs + 1 /\ 1 <= col <= 4 * ofs + 1 /\ 0 <= start <= ofs.
Proof.
  induction 1 as [|ofs line col start H IH Hlt d nx]; [pose proof (Nat2Z.is_nonneg (length text)); unfold zlen; lia|].
  pose proof (step_size ofs ltac:(lia)) as (A & B & _). change (utf8_decode (rest ofs)) with d in A, B. fold nx in B. assert (N : ofs + 1 <= nx <= ofs + 4) by (subst nx; lia). clearbody nx. clear A H. unfold after. destruct (point d =? 10); [cbn [fst snd]; lia|]. destruct (point d =? 9); [cbn [fst snd]; lia|]. destruct (point d =? 13); cbn [fst snd]; lia.
Qed.
Lemma advance_sc ofs st : sc ofs st -> ofs < zlen text ->
  let d := utf8_decode (rest ofs) in sc (ofs + Z.of_nat (nbytes d)) (advance (point d) (ofs + Z.of_nat (nbytes d)) st).
Proof.
  intros H Hlt d. destruct st as [[line col] start]. unfold sc in H. pose proof (sc_bounds _ _ _ _ H). pose proof (scan_char text ofs line col start H Hlt) as G. cbv zeta in G. fold (rest ofs) in G. fold d in G. pose proof (step_size ofs ltac:(lia)) as (A & B & _). fold d in A, B.
  unfold advance, after in *. unfold u32. destruct (point d =? 10); cbn [fst snd] in G; cbn [sc]; [rewrite Z.mod_small by lia; exact G|]. destruct (point d =? 9); cbn [fst snd] in G; cbn [sc]; [|destruct (point d =? 13); cbn [fst snd] in G; cbn [sc]; [exact G|rewrite Z.mod_small by lia; exact G]].
  replace ((col + (4 - col mod 4)) mod 2 ^ 32) with ((col / 4 + 1) * 4) by (rewrite Z.mod_small by lia; lia). exact G.
Qed.

(* the scan from a state gets to another one *)
Inductive reach : Z -> Z * Z * Z -> Z -> Z * Z * Z -> Prop :=
| reach_here ofs st : reach ofs st ofs st
| reach_on ofs st ofs' st' : 0 <= ofs < zlen text -> let d := utf8_decode (rest ofs) in let nx := ofs + Z.of_nat (nbytes d) in
    reach nx (advance (point d) nx st) ofs' st' -> reach ofs st ofs' st'.
Lemma reach_trans a sa b sb c sc' : reach a sa b sb -> reach b sb c sc' -> reach a sa c sc'.
Proof. induction 1; intros; [assumption|]. apply reach_on; [assumption|]. apply IHreach. assumption. Qed.
Lemma reach_ge a sa b sb : reach a sa b sb -> a <= b.
Proof. induction 1; [lia|]. subst nx. lia. Qed.
Lemma reach_split a sa b sb c sc' : reach a sa b sb -> reach a sa c sc' -> b <= c -> reach b sb c sc'.
Proof.
  induction 1 as [|o1 s1 o2 s2 Hx d nx R IH]; intros R' Le; [exact R'|]. apply IH; [|exact Le]. inversion R' as [o3 s3 Eo|o3 s3 o4 s4 Hx' d' nx' R2]; subst; [|exact R2].
  exfalso. apply reach_ge in R. pose proof (step_size c ltac:(lia)) as (S1 & _). fold d in S1. subst nx. lia.
Qed.
Lemma sc_reach ofs line col start : scanned text ofs line col start -> reach 0 (1, 1, 0) ofs (line, col, start).
Proof.
  induction 1 as [|ofs line col start H IH Hlt d nx]; [constructor|]. eapply reach_trans; [exact IH|]. pose proof (sc_bounds _ _ _ _ H). apply reach_on; [lia|]. fold (rest ofs) in d. fold d. fold nx.
  pose proof (step_size ofs ltac:(lia)) as (A & B & _). fold d in A, B. fold nx in B.
  replace (advance (point d) nx (line, col, start)) with (fst (after (point d) line col), snd (after (point d) line col), if point d =? 10 then nx else start); [constructor|].
  unfold advance, after, u32. destruct (point d =? 10); cbn [fst snd]; [rewrite Z.mod_small by lia; reflexivity|]. destruct (point d =? 9); cbn [fst snd]; [|destruct (point d =? 13); cbn [fst snd]; [reflexivity|rewrite Z.mod_small by lia; reflexivity]].
  replace ((col + (4 - col mod 4)) mod 2 ^ 32) with ((col / 4 + 1) * 4) by (rewrite Z.mod_small by lia; lia). reflexivity.
Qed.

Lemma build_ok i : forall fuel ofs st nextChunk l c s, (length (rest ofs) <= fuel)%nat -> sc ofs st -> ofs <= nextChunk -> nextChunk mod 256 = 0 -> nextChunk <= ofs + 256 ->
  nextChunk + 256 * Z.of_nat i < zlen text -> reach ofs st (nextChunk + 256 * Z.of_nat i) (l, c, s) ->
  nth_error (build fuel (rest ofs) ofs nextChunk st) i = Some (mkl l (nextChunk + 256 * Z.of_nat i - s) c 0).
Proof.
  intros fuel. revert i. induction fuel as [|fuel IH]; intros i ofs st nextChunk l c s Hf Hs H1 H2 H3 Hlt R.
  { exfalso. assert (0 <= ofs) by (destruct st as [[? ?] ?]; apply sc_bounds in Hs; lia). pose proof (rest_len ofs ltac:(lia)) as L. unfold zlen in *. lia. }
  assert (B : 0 <= ofs) by (destruct st as [[? ?] ?]; apply sc_bounds in Hs; lia).
  pose proof (rest_len ofs ltac:(lia)) as L. destruct (rest ofs) as [|x xs] eqn:E; [cbn in L; lia|]. rewrite <- E in *. cbn [build]. rewrite E. rewrite <- E.
  pose proof (step_size ofs ltac:(lia)) as (S1 & S2 & S3). cbv zeta. set (d := utf8_decode (rest ofs)) in *.
  pose proof (advance_sc ofs st Hs ltac:(lia)) as A. fold d in A. cbv zeta in A.
  assert (Eu : u32 (ofs + Z.of_nat (nbytes d)) = ofs + Z.of_nat (nbytes d)) by (unfold u32; apply Z.mod_small; lia). rewrite Eu. rewrite S3. set (nx := ofs + Z.of_nat (nbytes d)) in *.
  assert (Lf : (length (rest nx) <= fuel)%nat) by (pose proof (rest_len nx ltac:(lia)); unfold zlen in *; lia).
  destruct st as [[line col] start] eqn:Est. destruct (Z.ltb_spec nextChunk nx) as [Hc|Hc].
  - destruct i as [|i]; cbn [nth_error].
    + rewrite Z.mul_0_r, Z.add_0_r in *. inversion R as [|o1 s1 o2 s2 Hx d' nx' R']; subst.
      * f_equal. unfold mkLoc, u32. apply sc_bounds in Hs. f_equal; [apply Z.mod_small; lia|apply Z.mod_small; lia|lia].
      * exfalso. apply reach_ge in R'. subst nx' d'. fold d in R'. fold nx in R'. lia.
    + replace (u32 (nextChunk + 256)) with (nextChunk + 256) by (unfold u32; rewrite Z.mod_small by lia; reflexivity).
      rewrite (IH i nx (advance (point d) nx (line, col, start)) (nextChunk + 256) l c s); try assumption; try lia; [f_equal; f_equal; lia|].
      inversion R as [o1 s1 Eo|o1 s1 o2 s2 Hx d' nx' R']; subst; [lia|]. replace (nextChunk + 256 + 256 * Z.of_nat i) with (nextChunk + 256 * Z.of_nat (S i)) by lia. exact R'.
  - apply (IH i nx (advance (point d) nx (line, col, start)) nextChunk l c s); try assumption; try lia.
    inversion R as [o1 s1 Eo|o1 s1 o2 s2 Hx d' nx' R']; subst; [lia|exact R'].
Qed.

Lemma find_ok target tl tc ts : scanned text target tl tc ts -> forall ofs st fuel, reach ofs st target (tl, tc, ts) -> 0 <= ofs -> (Z.to_nat (target - ofs) <= fuel)%nat ->
  find fuel (rest ofs) ofs target st = Some (mkl tl (target - ts) tc 0).
Proof.
  intros T ofs st fuel R. remember (tl, tc, ts) as ft eqn:Eft. revert fuel. pose proof (sc_bounds _ _ _ _ T) as Bd. remember target as tg eqn:Etg in R.
  induction R as [o s0|o s0 o' s0' Hlt d nx R IH]; intros fuel H0 Hf.
  - subst o s0. destruct fuel; cbn [find]; (replace (target <=? target) with true by lia; replace (target - target <? 0) with false by lia; replace (target - ts <? 0) with false by lia; cbn [orb]; unfold mkLoc; f_equal; f_equal; [apply Z.mod_small; lia|lia]).
  - subst o'. pose proof (reach_ge _ _ _ _ R) as G. pose proof (step_size o ltac:(lia)) as (S1 & S2 & S3). fold d in S1, S2, S3. fold nx in S2, S3. destruct fuel as [|fuel]; [lia|]. destruct s0 as [[line col] start]. cbn [find]. replace (target <=? o) with false by lia. fold d. fold nx. rewrite S3. apply IH; try assumption; try reflexivity; lia.
Qed.

Theorem locate_ok offset line col start line0 col0 start0 : scanned text offset line col start -> scanned text (offset - offset mod 256) line0 col0 start0 -> (offset mod 256 <> 0 \/ offset < zlen text \/ offset = 0) ->
  locate text offset = Some (mkl line (offset - start) col 0).
Proof.
  intros T T0 H. pose proof (sc_bounds _ _ _ _ T) as Bd. pose proof (sc_bounds _ _ _ _ T0) as Bd0. unfold locate, getFileLocation. replace (offset <=? zlen text) with true by lia.
  assert (E : nth_error (fromView text) (Z.to_nat (offset / 256)) = Some (mkl line0 (offset - offset mod 256 - start0) col0 0)).
  { unfold fromView. destruct (Z.to_nat (offset / 256)) as [|i] eqn:Ei.
    - assert (offset - offset mod 256 = 0) as E0 by lia. rewrite E0 in *. pose proof (sc_reach _ _ _ _ T0) as R. assert (Hd : (line0, col0, start0) = (1, 1, 0)).
      { inversion R as [|o1 s1 o2 s2 Hx d nx R']; subst; [reflexivity|]. apply reach_ge in R'. pose proof (step_size 0 ltac:(lia)) as (S1 & _). fold d in S1. lia. }
      inversion Hd; subst. reflexivity.
    - cbn [nth_error]. change text with (rest 0) at 2. rewrite (build_ok i (length text) 0 (1, 1, 0) 256 line0 col0 start0); [do 2 f_equal; lia|change (rest 0) with text; lia|constructor|lia|reflexivity|lia|lia|].
      replace (256 + 256 * Z.of_nat i) with (offset - offset mod 256) by lia. apply sc_reach, T0. }
  rewrite E. cbn [intoColumn lineNumber columnNumber intoLine]. rewrite Z.sub_0_r. replace ((0 <=? offset - offset mod 256) && (offset - offset mod 256 <=? zlen text)) with true by lia.
  replace (offset - offset mod 256 - (offset - offset mod 256 - start0)) with start0 by lia. fold (rest (offset - offset mod 256)).
  apply (find_ok offset line col start T (offset - offset mod 256) (line0, col0, start0)); [|lia|unfold zlen in *; lia].
  apply (reach_split 0 (1, 1, 0)); [apply sc_reach, T0|apply sc_reach, T|lia].
Qed.
End Loc.

(* ASCII text *)
Lemma ascii_bytes t : ascii t -> bytes_ok t.
Proof. unfold bytes_ok. apply Forall_impl. intros c H. unfold is_byte. lia. Qed.
Lemma lastLine_app p c : lastLine (p ++ [c]) = if c =? 10 then [] else lastLine p ++ [c].
Proof.
  induction p as [|x p IH]; cbn [app lastLine]; [cbn [existsb]; destruct (c =? 10); reflexivity|]. rewrite existsb_app. cbn [existsb]. rewrite orb_false_r. rewrite (Z.eqb_sym 10 c). rewrite IH. destruct (c =? 10) eqn:E.
  - rewrite orb_true_r. reflexivity.
  - rewrite orb_false_r. destruct (existsb (Z.eqb 10) p); [reflexivity|]. destruct (x =? 10); reflexivity.
Qed.
Lemma lastLine_none p : existsb (Z.eqb 10) p = false -> lastLine p = p.
Proof. destruct p as [|x p]; [reflexivity|]. cbn [existsb lastLine]. rewrite orb_false_iff. intros [A B]. rewrite B, (Z.eqb_sym x 10), A. reflexivity. Qed.
Lemma ascii_decode c v : 0 <= c < 128 -> point (utf8_decode (c :: v)) = c /\ nbytes (utf8_decode (c :: v)) = 1%nat.
Proof. intros H. unfold utf8_decode. replace (c <? 128) with true by lia. split; reflexivity. Qed.
Lemma ascii_scan text (A : ascii text) k : (k <= length text)%nat ->
  let p := firstn k text in scanned text (Z.of_nat k) (1 + Z.of_nat (count_occ Z.eq_dec p 10)) (column (lastLine p)) (Z.of_nat k - zlen (lastLine p)).
Proof.
  induction k as [|k IH]; intros Hk p; [apply scan_start|]. assert (Hk' : (k < length text)%nat) by lia. cbv zeta in IH. specialize (IH ltac:(lia)).
  destruct (skipn k text) as [|c v] eqn:E; [exfalso; pose proof (skipn_length k text) as L; rewrite E in L; cbn in L; lia|].
  assert (Ec : 0 <= c < 128). { unfold ascii in A. rewrite <- (firstn_skipn k text), E in A. apply Forall_app in A. destruct A as [_ A]. inversion A; assumption. }
  assert (Ep : p = firstn k text ++ [c]). { unfold p. replace (S k) with (k + 1)%nat by lia. pose proof (firstn_skipn k text) as F. rewrite <- F at 1. rewrite firstn_app, firstn_length, Nat.min_l by lia. replace (k + 1 - k)%nat with 1%nat by lia. rewrite firstn_all2 by (rewrite firstn_length; lia). rewrite E. reflexivity. }
  pose proof (scan_char text _ _ _ _ IH ltac:(unfold zlen; lia)) as G. cbv zeta in G. rewrite Nat2Z.id, E in G. destruct (ascii_decode c v Ec) as [D1 D2]. rewrite D1, D2 in G. rewrite Ep, lastLine_app, count_occ_app.
  unfold after in G. cbn [count_occ]. replace (Z.of_nat (S k)) with (Z.of_nat k + Z.of_nat 1) by lia. destruct (Z.eqb_spec c 10) as [->|N]; cbn [fst snd] in G.
  - destruct (Z.eq_dec 10 10) as [_|]; [|contradiction]. change (column []) with 1. change (zlen []) with 0. rewrite Z.sub_0_r. replace (1 + Z.of_nat (count_occ Z.eq_dec (firstn k text) 10 + 1)) with (1 + Z.of_nat (count_occ Z.eq_dec (firstn k text) 10) + 1) by lia. exact G.
  - destruct (Z.eq_dec c 10) as [|_]; [contradiction|]. rewrite Nat.add_0_r. unfold column in *. rewrite fold_left_app. cbn [fold_left]. unfold after at 1. rewrite (proj2 (Z.eqb_neq c 10) N). unfold zlen in *. rewrite app_length. cbn [length].
    replace (Z.of_nat k + Z.of_nat 1 - Z.of_nat (length (lastLine (firstn k text)) + 1)) with (Z.of_nat k - Z.of_nat (length (lastLine (firstn k text)))) by lia.
    destruct (c =? 9); [exact G|]. destruct (c =? 13); exact G.
Qed.
Theorem locate_ascii text offset : ascii text -> zlen text < 2 ^ 26 -> 0 <= offset <= zlen text -> (offset mod 256 <> 0 \/ offset < zlen text \/ offset = 0) ->
  let p := firstn (Z.to_nat offset) text in
  locate text offset = Some (mkl (1 + Z.of_nat (count_occ Z.eq_dec p 10)) (zlen (lastLine p)) (column (lastLine p)) 0).
Proof.
  intros A Hn Ho H p. pose proof (ascii_scan text A (Z.to_nat offset) ltac:(unfold zlen in *; lia)) as T. cbv zeta in T. fold p in T. rewrite Z2Nat.id in T by lia.
  pose proof (ascii_scan text A (Z.to_nat (offset - offset mod 256)) ltac:(unfold zlen in *; lia)) as T0. cbv zeta in T0. rewrite Z2Nat.id in T0 by lia.
  rewrite (locate_ok text (ascii_bytes _ A) Hn offset _ _ _ _ _ _ T T0 H). do 2 f_equal. lia.
Qed.

Lemma ascii_of t : forallb (fun c => (0 <=? c) && (c <? 128)) t = true -> ascii t.
Proof. intros A. apply Forall_forall. intros c H. rewrite forallb_forall in A. specialize (A c H). lia. Qed.
Lemma bytes_of t : forallb (fun c => (0 <=? c) && (c <? 256)) t = true -> bytes_ok t.
Proof. intros A. apply Forall_forall. intros c H. rewrite forallb_forall in A. specialize (A c H). unfold is_byte. lia. Qed.
(* scanning a run of one-byte characters 97 *)
Lemma scan_run t n k : (k <= n)%nat -> firstn n t = repeat 97 n -> (n <= length t)%nat -> scanned t (Z.of_nat k) 1 (1 + Z.of_nat k) 0.
Proof.
  intros Hk F L. induction k as [|k IH]; [apply scan_start|]. specialize (IH ltac:(lia)).
  assert (Hd : exists v, skipn k t = 97 :: v).
  { rewrite <- (firstn_skipn n t), F. assert (Er : repeat 97 n = repeat 97 k ++ 97 :: repeat 97 (n - k - 1)) by (change (97 :: repeat 97 (n - k - 1)) with (repeat 97 (S (n - k - 1))); rewrite <- repeat_app; f_equal; lia). rewrite Er, <- app_assoc, skipn_app, skipn_all2 by (rewrite repeat_length; lia). rewrite repeat_length, Nat.sub_diag. cbn [skipn app]. eexists. reflexivity. }
  destruct Hd as [v Hv]. pose proof (scan_char t (Z.of_nat k) 1 (1 + Z.of_nat k) 0 IH ltac:(unfold zlen; lia)) as G. cbv zeta in G. rewrite Nat2Z.id, Hv in G. destruct (ascii_decode 97 v ltac:(lia)) as [D1 D2]. rewrite D1, D2 in G. unfold after in G. cbn [Z.eqb fst snd Pos.eqb] in G. replace (Z.of_nat (S k)) with (Z.of_nat k + Z.of_nat 1) by lia. rewrite Z.add_assoc. exact G.
Qed.
Lemma location_straddle :
  exists text offset line col start l i c k, bytes_ok text /\ zlen text = 261 /\ scanned text offset line col start /\ locate text offset = Some (mkl l i c k) /\ c <> col.
Proof.
  exists (repeat 97 255 ++ [195; 169; 98; 99; 100; 101]), 257, 1, 257, 0, 1, 257, 271, 0.
  split; [apply bytes_of; reflexivity|]. split; [reflexivity|]. split; [|split; [reflexivity|lia]].
  exact (scan_char _ 255 1 256 0 (scan_run (repeat 97 255 ++ [195; 169; 98; 99; 100; 101]) 255 255 (le_n _) eq_refl ltac:(cbn; lia)) eq_refl).
Qed.
Lemma location_end : exists text, ascii text /\ zlen text = 256 /\ locate text 256 = None.
Proof. exists (repeat 97 256). split; [apply ascii_of; reflexivity|]. split; reflexivity. Qed.
