(* Proofs about images. *)
From Coq Require Import Lia ZifyBool ZifyNat.
From Verif Require Import ImageModel ImageSpec.
Local Notation "'do' x <- e ; f" := (match e with Some x => f | None => None end) (at level 200, x pattern, e at level 100, f at level 200).

(** ** Rectangles *)
Lemma containsPoint_iff r x y : containsPoint r x y = true <-> inRect r x y.
Proof. unfold containsPoint, inRect. lia. Qed.
Lemma isEmpty_iff r : isEmpty r = true <-> forall x y, ~ inRect r x y.
Proof.
  unfold isEmpty, inRect. split; [intros; lia|]. intros H. specialize (H (minX r) (minY r)). lia.
Qed.
Lemma intersect_iff a b x y : inRect (intersect a b) x y <-> inRect a x y /\ inRect b x y.
Proof. unfold inRect. cbn. lia. Qed.
Lemma intersects_iff a b : intersects a b = true <-> exists x y, inRect a x y /\ inRect b x y.
Proof.
  unfold intersects. destruct (isEmpty (intersect a b)) eqn:E; cbn.
  - split; [discriminate|]. intros (x & y & H). exfalso. rewrite isEmpty_iff in E. apply (E x y). now apply intersect_iff.
  - split; [|auto]. intros _. exists (minX (intersect a b)), (minY (intersect a b)). apply intersect_iff.
    unfold isEmpty in E. unfold inRect. lia.
Qed.
Lemma containsRect_iff r q : isEmpty q = false -> (containsRect r q = true <-> forall x y, inRect q x y -> inRect r x y).
Proof.
  unfold isEmpty, containsRect, inRect. intros E. split; [intros; lia|]. intros H.
  pose proof (H (minX q) (minY q)). pose proof (H (maxX q - 1) (maxY q - 1)). lia.
Qed.
Lemma union_least a b r : isEmpty a = false -> isEmpty b = false ->
  (forall x y, inRect a x y \/ inRect b x y -> inRect (union a b) x y) /\
  ((forall x y, inRect a x y \/ inRect b x y -> inRect r x y) -> forall x y, inRect (union a b) x y -> inRect r x y).
Proof.
  unfold isEmpty, inRect, union. cbn. intros EA EB. split; [intros; lia|]. intros H x y I.
  pose proof (H (minX a) (minY a)). pose proof (H (maxX a - 1) (maxY a - 1)). pose proof (H (minX b) (minY b)). pose proof (H (maxX b - 1) (maxY b - 1)). lia.
Qed.
Lemma union_empty r : rectS32 r -> union emptyRect r = r /\ union r emptyRect = r.
Proof.
  destruct r as [a b c d]. unfold rectS32, isS32, union, emptyRect. cbn [minX minY maxX maxY]. intros. split; f_equal; lia.
Qed.
Lemma chk_some z : isS32 z -> chk z = Some z.
Proof. unfold isS32, chk. intros. now replace ((- 2 ^ 31 <=? z) && (z <? 2 ^ 31)) with true by lia. Qed.
Lemma chk_inv z r : chk z = Some r -> r = z /\ isS32 z.
Proof. unfold chk, isS32. destruct (_ && _) eqn:E; [|discriminate]. intros [= <-]. lia. Qed.

(** ** Memory *)
Definition put (m : mem) (a : Z) (l : list Z) : mem := fun x => if (a <=? x) && (x <? a + zlen l) then nth_error l (Z.to_nat (x - a)) else m x.
Lemma store_ok : forall l m a, (forall i, 0 <= i < zlen l -> m (a + i) <> None) -> exists m', store m a l = Some m' /\ forall x, m' x = put m a l x.
Proof.
  induction l as [|b l IH]; intros m a H.
  - exists m. split; [reflexivity|]. intros x. unfold put, zlen. cbn. destruct (_ && _) eqn:E; [lia|reflexivity].
  - cbn [store]. destruct (m a) eqn:E. 2:{ elim (H 0). unfold zlen. cbn. lia. now rewrite Z.add_0_r. }
    destruct (IH (fun x => if x =? a then Some b else m x) (a + 1)) as (m' & S1 & S2).
    { intros i I. destruct (a + 1 + i =? a); [discriminate|]. rewrite <- Z.add_assoc. apply H. unfold zlen in *. cbn [length]. lia. }
    exists m'. split; [exact S1|]. intros x. rewrite S2. unfold put, zlen. cbn [length]. rewrite Nat2Z.inj_succ.
    destruct ((a + 1 <=? x) && (x <? a + 1 + Z.of_nat (length l))) eqn:E1.
    + replace ((a <=? x) && (x <? a + Z.succ (Z.of_nat (length l)))) with true by lia.
      replace (Z.to_nat (x - a)) with (S (Z.to_nat (x - (a + 1)))) by lia. reflexivity.
    + destruct (x =? a) eqn:E2.
      * replace ((a <=? x) && (x <? a + Z.succ (Z.of_nat (length l)))) with true by lia. replace (Z.to_nat (x - a)) with 0%nat by lia. reflexivity.
      * replace ((a <=? x) && (x <? a + Z.succ (Z.of_nat (length l)))) with false by lia. reflexivity.
Qed.
Lemma load_ok : forall n m a, (forall i, 0 <= i < Z.of_nat n -> m (a + i) <> None) ->
  exists l, load m a n = Some l /\ length l = n /\ forall i, 0 <= i < Z.of_nat n -> nth_error l (Z.to_nat i) = m (a + i).
Proof.
  induction n as [|n IH]; intros m a H.
  - exists []. repeat split. intros; lia.
  - cbn [load]. destruct (m a) eqn:E. 2:{ elim (H 0). lia. now rewrite Z.add_0_r. }
    destruct (IH m (a + 1)) as (l & L1 & L2 & L3). { intros i I. rewrite <- Z.add_assoc. apply H. lia. }
    rewrite L1. exists (z :: l). split; [reflexivity|]. split; [cbn; now rewrite L2|]. intros i I. destruct (Z.eq_dec i 0) as [->|N].
    + cbn. now rewrite Z.add_0_r, E.
    + replace (Z.to_nat i) with (S (Z.to_nat (i - 1))) by lia. cbn [nth_error]. rewrite L3 by lia. f_equal. lia.
Qed.
Lemma load_eq m m' a n : (forall i, 0 <= i < Z.of_nat n -> m (a + i) = m' (a + i)) -> load m a n = load m' a n.
Proof.
  revert a. induction n as [|n IH]; intros a H; [reflexivity|]. cbn [load]. rewrite <- (IH (a + 1)).
  - specialize (H 0). rewrite Z.add_0_r in H. rewrite H by lia. reflexivity.
  - intros i I. rewrite <- !Z.add_assoc. apply H. lia.
Qed.
Lemma copyBytes_ok m d s n : 0 <= n -> (n = 0 \/ d + n <= s \/ s + n <= d) -> (forall i, 0 <= i < n -> m (s + i) <> None /\ m (d + i) <> None) ->
  exists m', copyBytes d s n m = Some m' /\ forall x, m' x = if (d <=? x) && (x <? d + n) then m (s + (x - d)) else m x.
Proof.
  intros N A H. unfold copyBytes. replace ((0 <? n) && (d <? s + n) && (s <? d + n)) with false by lia.
  destruct (load_ok (Z.to_nat n) m s) as (l & L1 & L2 & L3). { intros i I. apply H. lia. } rewrite L1.
  destruct (store_ok l m d) as (m' & S1 & S2). { intros i I. apply H. unfold zlen in I. lia. }
  exists m'. split; [exact S1|]. intros x. rewrite S2. unfold put, zlen. rewrite L2, Z2Nat.id by lia.
  destruct ((d <=? x) && (x <? d + n)) eqn:E; [|reflexivity]. apply L3. lia.
Qed.
Lemma count_ind (P : Z -> mem -> Prop) body : forall n y m, P y m ->
  (forall i m, y <= i < y + Z.of_nat n -> P i m -> exists m', body i m = Some m' /\ P (i + 1) m') -> exists m', count n y body m = Some m' /\ P (y + Z.of_nat n) m'.
Proof.
  induction n as [|n IH]; intros y m H0 HS.
  - exists m. split; [reflexivity|]. now replace (y + Z.of_nat 0) with y by lia.
  - cbn [count]. destruct (HS y m ltac:(lia) H0) as (m1 & B1 & P1). rewrite B1. destruct (IH (y + 1) m1 P1) as (m2 & C2 & P2).
    { intros i mm I. apply HS. lia. } exists m2. split; [exact C2|]. now replace (y + Z.of_nat (S n)) with (y + 1 + Z.of_nat n) by lia.
Qed.
Lemma loop_count body step : 0 < step -> forall n p m, loop n p (p + Z.of_nat n * step) step body m = count n 0 (fun i => body (p + i * step)) m.
Proof.
  intros ST n p m. enough (X : forall k, loop n (p + k * step) (p + k * step + Z.of_nat n * step) step body m = count n k (fun i => body (p + i * step)) m).
  { specialize (X 0). now rewrite Z.mul_0_l, Z.add_0_r in X. }
  revert m. induction n as [|n IH]; intros m k.
  - cbn [loop count]. destruct (_ <? _) eqn:E; [lia|reflexivity].
  - cbn [loop count]. replace (p + k * step <? p + k * step + Z.of_nat (S n) * step) with true by nia.
    destruct (body (p + k * step) m) as [m1|]; [|reflexivity]. rewrite <- IH. f_equal; lia.
Qed.
Lemma loop_countZ body step n p m : 0 < step -> 0 <= n -> loop (Z.to_nat n) p (p + n * step) step body m = count (Z.to_nat n) 0 (fun i => body (p + i * step)) m.
Proof. intros ST N. rewrite <- loop_count by exact ST. f_equal. lia. Qed.
Lemma count_ext body body' : forall n y m, (forall i m, y <= i < y + Z.of_nat n -> body i m = body' i m) -> count n y body m = count n y body' m.
Proof.
  induction n as [|n IH]; intros y m H; [reflexivity|]. cbn [count]. rewrite H by lia. destruct (body' y m); [|reflexivity]. apply IH. intros. apply H. lia.
Qed.

(** Cells of a row. *)
Lemma cells_ok m n d dS s sS g : 0 <= n -> 0 < dS -> 0 <= sS -> (forall v, length v = Z.to_nat sS -> zlen (g v) = dS) ->
  (forall i, 0 <= i < n * dS -> m (d + i) <> None) -> (forall i, 0 <= i < n * sS -> m (s + i) <> None) ->
  (forall i j, 0 <= i < n * dS -> 0 <= j < n * sS -> d + i <> s + j) ->
  exists m', cells n d dS s sS g m = Some m' /\
    forall x, if (d <=? x) && (x <? d + n * dS) then exists v, load m (s + (x - d) / dS * sS) (Z.to_nat sS) = Some v /\ m' x = nth_error (g v) (Z.to_nat ((x - d) mod dS))
              else m' x = m x.
Proof.
  intros N PD PS LG HD HS AP. unfold cells.
  rewrite loop_countZ by lia.
  destruct (count_ind (fun k m' => forall x, if (d <=? x) && (x <? d + k * dS)
      then exists v, load m (s + (x - d) / dS * sS) (Z.to_nat sS) = Some v /\ m' x = nth_error (g v) (Z.to_nat ((x - d) mod dS)) else m' x = m x)
    (fun i m => do v <- load m (s + (d + i * dS - d) / dS * sS) (Z.to_nat sS); store m (d + i * dS) (g v)) (Z.to_nat n) 0 m) as (m' & C & P).
  - intros x. replace ((d <=? x) && (x <? d + 0 * dS)) with false by lia. reflexivity.
  - intros i m1 I P. replace ((d + i * dS - d) / dS) with i by (replace (d + i * dS - d) with (i * dS) by lia; now rewrite Z.div_mul by lia).
    assert (SRC : forall j, 0 <= j < sS -> m1 (s + i * sS + j) = m (s + i * sS + j)).
    { intros j J. specialize (P (s + i * sS + j)). destruct ((d <=? s + i * sS + j) && (s + i * sS + j <? d + i * dS)) eqn:E; [|exact P].
      elim (AP (s + i * sS + j - d) (i * sS + j)); nia. }
    rewrite (load_eq m1 m) by (intros j J; apply SRC; lia).
    destruct (load_ok (Z.to_nat sS) m (s + i * sS)) as (v & L1 & L2 & L3). { intros j J. rewrite <- Z.add_assoc. apply HS. nia. }
    rewrite L1. pose proof (LG v L2) as LV.
    destruct (store_ok (g v) m1 (d + i * dS)) as (m2 & S1 & S2).
    { intros j J. specialize (P (d + i * dS + j)). replace ((d <=? d + i * dS + j) && (d + i * dS + j <? d + i * dS)) with false in P by lia. rewrite P.
      rewrite <- Z.add_assoc. apply HD. rewrite LV in J. nia. }
    exists m2. split; [exact S1|]. intros x. rewrite S2. unfold put. rewrite LV.
    destruct ((d <=? x) && (x <? d + (i + 1) * dS)) eqn:E1.
    + destruct ((d + i * dS <=? x) && (x <? d + i * dS + dS)) eqn:E2.
      * assert (Q : (x - d) / dS = i) by (symmetry; apply (Z.div_unique _ _ i (x - d - i * dS)); lia).
        assert (Q2 : (x - d) mod dS = x - (d + i * dS)) by (symmetry; apply (Z.mod_unique _ _ i); lia).
        exists v. rewrite Q, Q2. split; [exact L1|reflexivity].
      * specialize (P x). replace ((d <=? x) && (x <? d + i * dS)) with true in P by lia. exact P.
    + replace ((d + i * dS <=? x) && (x <? d + i * dS + dS)) with false by nia. specialize (P x).
      replace ((d <=? x) && (x <? d + i * dS)) with false in P by nia. exact P.
  - exists m'. split; [exact C|]. replace (0 + Z.of_nat (Z.to_nat n)) with n in P by lia. exact P.
Qed.

(** ** Rows of an image *)
Definition rowAt (im : image) (y i : Z) : Z := data im + y * stride im + i.
Lemma bpp_range f : 0 <= formatToBPP f <= 16.
Proof.
  unfold formatToBPP. destruct (nth_in_or_default (Z.to_nat f) bppTable 0) as [H|H]; [|rewrite H; lia].
  unfold bppTable in *. repeat (destruct H as [H|H]; [rewrite <- H; lia|]). destruct H.
Qed.
Lemma row_covers im y i : proper im -> 0 <= y < height im -> 0 <= i < width im * bytespp im -> covers im (rowAt im y i).
Proof.
  intros (F & B & W & _) Y I. pose proof (bpp_range (format im)). rewrite <- B in *. exists (i / bytespp im), y, (i mod bytespp im).
  assert (0 < bytespp im) by nia. pose proof (Z.div_mod i (bytespp im) ltac:(lia)). pose proof (Z.mod_pos_bound i (bytespp im) ltac:(lia)).
  split; [|unfold place, rowAt; nia]. unfold inImage. repeat split; try lia; [apply Z.div_pos; lia|apply Z.div_lt_upper_bound; nia].
Qed.
Lemma covers_row im a : proper im -> covers im a -> exists y i, 0 <= y < height im /\ 0 <= i < width im * bytespp im /\ a = rowAt im y i.
Proof.
  intros _ (x & y & k & (X & Y & K) & ->). exists y, (x * bytespp im + k). repeat split; try lia; try nia. unfold place, rowAt. lia.
Qed.
Lemma place_row im x y k : place im x y k = rowAt im y (x * bytespp im + k).
Proof. unfold place, rowAt. lia. Qed.
Lemma inside_row im x y k : inImage im x y k -> 0 <= x * bytespp im + k < width im * bytespp im.
Proof. unfold inImage. nia. Qed.
Definition inRow (im : image) (y a : Z) : bool := (rowAt im y 0 <=? a) && (a <? rowAt im y 0 + width im * bytespp im).

Lemma rows_ok dst m0 body (F : Z -> Z -> option Z) : proper dst -> present dst m0 ->
  (forall y i, 0 <= y < height dst -> 0 <= i < width dst * bytespp dst -> F y i <> None) ->
  (forall y m, 0 <= y < height dst -> (forall a, ~ covers dst a -> m a = m0 a) -> (forall a, covers dst a -> m a <> None) ->
     exists m', body y m = Some m' /\ forall a, m' a = if inRow dst y a then F y (a - rowAt dst y 0) else m a) ->
  exists m', count (Z.to_nat (height dst)) 0 body m0 = Some m' /\ onlyChanges dst m0 m' /\
    forall y i, 0 <= y < height dst -> 0 <= i < width dst * bytespp dst -> m' (rowAt dst y i) = F y i.
Proof.
  intros PR HP FN HB. pose proof PR as (_ & _ & W & H & ST & _).
  destruct (count_ind (fun k m => (forall y i, 0 <= y < k -> 0 <= i < width dst * bytespp dst -> m (rowAt dst y i) = F y i) /\
     (forall a, ~ covers dst a -> m a = m0 a) /\ (forall a, covers dst a -> m a <> None)) body (Z.to_nat (height dst)) 0 m0) as (m' & C & P1 & P2 & P3).
  - split; [intros; lia|]. split; [reflexivity|]. intros a (x & y & k & I & ->). destruct (HP x y k I) as (b & B). unfold pixel in B. congruence.
  - intros y m Y (P1 & P2 & P3). destruct (HB y m) as (m' & B & E); [lia|exact P2|exact P3|]. exists m'. split; [exact B|]. split; [|split].
    + intros y' i Y' I. rewrite E. unfold inRow. destruct (Z.eq_dec y' y) as [->|N].
      * replace ((rowAt dst y 0 <=? rowAt dst y i) && (rowAt dst y i <? rowAt dst y 0 + width dst * bytespp dst)) with true by (unfold rowAt; lia).
        f_equal. unfold rowAt. lia.
      * replace ((rowAt dst y 0 <=? rowAt dst y' i) && (rowAt dst y' i <? rowAt dst y 0 + width dst * bytespp dst)) with false.
        -- apply P1; lia.
        -- assert (rowAt dst y' i < rowAt dst y 0) by (unfold rowAt; nia). lia.
    + intros a NC. rewrite E. destruct (inRow dst y a) eqn:IR; [|apply P2; exact NC]. elim NC. unfold inRow in IR.
      replace a with (rowAt dst y (a - rowAt dst y 0)) by (unfold rowAt; lia). apply row_covers; [exact PR|lia|lia].
    + intros a NC. rewrite E. destruct (inRow dst y a) eqn:IR; [|apply P3; exact NC]. unfold inRow in IR. apply FN; lia.
  - exists m'. split; [exact C|]. split; [exact P2|]. intros. apply P1; lia.
Qed.
Lemma getPixel_ok im x y : proper im -> 0 <= x < width im -> 0 <= y < height im -> getPixel im x y = Some (rowAt im y (x * bytespp im)).
Proof.
  intros (F & B & W & H & ST & HS) X Y. pose proof (bpp_range (format im)). rewrite <- B in *. unfold getPixel.
  replace (containsPoint (getRect im) x y) with true by (unfold containsPoint, getRect; cbn; lia).
  rewrite !chk_some by (unfold isS32; nia). reflexivity.
Qed.
Lemma getPixel_0 im y : proper im -> 0 < width im -> 0 <= y < height im -> getPixel im 0 y = Some (rowAt im y 0).
Proof. intros. rewrite getPixel_ok by (auto; lia). now rewrite Z.mul_0_l. Qed.

(** Rows copied from one image to another. *)
Lemma copyRows_ok dst src m0 (row : Z -> Z) n : proper dst -> proper src -> present dst m0 -> present src m0 -> apart dst src ->
  0 < width dst -> width src = width dst -> bytespp src = bytespp dst -> n = width dst * bytespp dst ->
  (forall y, 0 <= y < height dst -> 0 <= row y < height src) ->
  exists m', count (Z.to_nat (height dst)) 0 (fun y m => do d <- getPixel dst 0 y; do s <- getPixel src 0 (row y); copyBytes d s n m) m0 = Some m' /\
    onlyChanges dst m0 m' /\ forall x y k, inImage dst x y k -> pixel dst m' x y k = pixel src m0 x (row y) k.
Proof.
  intros PD PS HD HS AP W WE BE -> RR.
  assert (NS : forall a, covers src a -> ~ covers dst a) by (intros a A1 A2; exact (AP a A2 A1)).
  assert (SRC : forall y i, 0 <= y < height src -> 0 <= i < width dst * bytespp dst -> m0 (rowAt src y i) <> None).
  { intros y i Y I. destruct (row_covers src y i PS Y) as (x & y' & k & II & E); [rewrite WE, BE; lia|]. destruct (HS _ _ _ II) as (b & B). unfold pixel in B. congruence. }
  destruct (rows_ok dst m0 (fun y m => do d <- getPixel dst 0 y; do s <- getPixel src 0 (row y); copyBytes d s (width dst * bytespp dst) m)
    (fun y i => m0 (rowAt src (row y) i)) PD HD) as (m' & C & OC & V).
  - intros. apply SRC; auto.
  - intros y m Y UN PRS. rewrite (getPixel_0 dst) by (auto; lia). rewrite (getPixel_0 src) by (auto; lia).
    destruct (copyBytes_ok m (rowAt dst y 0) (rowAt src (row y) 0) (width dst * bytespp dst)) as (m' & C & E).
    + pose proof PD as (_ & B & _). pose proof (bpp_range (format dst)). nia.
    + destruct (Z.eq_dec (width dst * bytespp dst) 0) as [Z0|N0]; [now left|right].
      destruct (Z_le_gt_dec (rowAt dst y 0 + width dst * bytespp dst) (rowAt src (row y) 0)) as [L|G]; [now left|].
      destruct (Z_le_gt_dec (rowAt src (row y) 0 + width dst * bytespp dst) (rowAt dst y 0)) as [L|G2]; [now right|]. exfalso.
      set (a := Z.max (rowAt dst y 0) (rowAt src (row y) 0)).
      assert (0 < width dst * bytespp dst) by (pose proof PD as (_ & B & _); pose proof (bpp_range (format dst)); nia).
      apply (AP a).
      * replace a with (rowAt dst y (a - rowAt dst y 0)) by (unfold rowAt; lia). apply row_covers; auto. unfold a; lia.
      * replace a with (rowAt src (row y) (a - rowAt src (row y) 0)) by (unfold rowAt; lia). apply row_covers; auto. rewrite WE, BE. unfold a; lia.
    + intros i I. replace (rowAt src (row y) 0 + i) with (rowAt src (row y) i) by (unfold rowAt; lia).
      replace (rowAt dst y 0 + i) with (rowAt dst y i) by (unfold rowAt; lia). split.
      * rewrite UN. apply SRC; auto. apply NS, row_covers; auto. rewrite WE, BE. lia.
      * apply PRS. apply row_covers; auto.
    + exists m'. split; [exact C|]. intros a. rewrite E. fold (inRow dst y a). destruct (inRow dst y a) eqn:IR; [|reflexivity]. unfold inRow in IR.
      replace (rowAt src (row y) 0 + (a - rowAt dst y 0)) with (rowAt src (row y) (a - rowAt dst y 0)) by (unfold rowAt; lia).
      apply UN, NS, row_covers; auto. rewrite WE, BE. lia.
  - exists m'. split; [exact C|]. split; [exact OC|]. intros x y k I. unfold pixel. rewrite !place_row, BE. apply V; [apply I|]. now apply (inside_row _ _ y).
Qed.

Lemma verticalFlip_ok dst src m : proper dst -> proper src -> present dst m -> present src m -> apart dst src ->
  0 < width dst -> format dst = format src -> width src = width dst -> height src = height dst ->
  exists m', verticalFlip dst src m = Some m' /\ onlyChanges dst m m' /\
    forall x y k, inImage dst x y k -> pixel dst m' x y k = pixel src m x (height dst - 1 - y) k.
Proof.
  intros PD PS HD HS AP W FE WE HE. unfold verticalFlip, sameDims.
  replace ((format dst =? format src) && ((width src =? width dst) && (height src =? height dst))) with true by lia.
  pose proof PD as (_ & B & _). pose proof PS as (_ & B' & _).
  apply (copyRows_ok dst src m (fun y => height dst - 1 - y)); auto; try congruence; try lia.
Qed.
Lemma grid y h t r : 0 <= y < h -> 0 <= t < r -> 0 <= y * r + t < r * h.
Proof. nia. Qed.
Lemma grid2 x w k f : 0 <= x < w -> 0 <= k < f -> 0 <= x * f + k < w * f.
Proof. nia. Qed.
Lemma alloc_ok at_ junk w h f m : 0 <= f < 18 -> 0 <= w < 2 ^ 31 -> 0 <= h < 2 ^ 31 -> w * formatToBPP f < 2 ^ 31 -> h * (w * formatToBPP f) < 2 ^ 31 ->
  exists im m', allocImage at_ junk w h f m = Some (im, m') /\ im = mkImage at_ (w * formatToBPP f) w h (formatToBPP f) f /\
    proper im /\ present im m' /\ (forall a, ~ (at_ <= a < at_ + w * formatToBPP f * h) -> m' a = m a).
Proof.
  intros F W H S1 S2. pose proof (bpp_range f). unfold allocImage. replace (f <? 18) with true by lia. rewrite !chk_some by (unfold isS32; nia).
  replace (w * formatToBPP f * h <? 0) with false by nia. eexists _, _. split; [reflexivity|]. split; [reflexivity|]. split; [|split].
  - unfold proper. cbn [format bytespp width height stride]. repeat split; try lia; try reflexivity.
  - intros x y k (X & Y & K). cbn in X, Y, K. unfold pixel, place. cbn [data stride bytespp].
    replace ((at_ <=? at_ + y * (w * formatToBPP f) + x * formatToBPP f + k) && (at_ + y * (w * formatToBPP f) + x * formatToBPP f + k <? at_ + w * formatToBPP f * h)) with true; [eauto|].
    pose proof (grid2 x w k (formatToBPP f) X K).
    pose proof (grid y h (x * formatToBPP f + k) (w * formatToBPP f)). symmetry. apply andb_true_intro. split; [apply Z.leb_le; lia|apply Z.ltb_lt; lia].
  - intros a A. replace ((at_ <=? a) && (a <? at_ + w * formatToBPP f * h)) with false by lia. reflexivity.
Qed.
Lemma copy_ok at_ junk im m : proper im -> present im m -> 0 < width im -> height im * (width im * bytespp im) < 2 ^ 31 ->
  (forall a, covers im a -> ~ (at_ <= a < at_ + width im * bytespp im * height im)) ->
  exists dst m', copy at_ junk im m = Some (dst, m') /\ proper dst /\ present dst m' /\ width dst = width im /\ height dst = height im /\ format dst = format im /\
    (forall x y k, inImage im x y k -> pixel dst m' x y k = pixel im m x y k) /\
    (forall a, ~ (at_ <= a < at_ + width im * bytespp im * height im) -> m' a = m a).
Proof.
  intros P PR W HS FR. pose proof P as (F & B & W0 & H0 & ST & HST). rewrite B in *. pose proof (bpp_range (format im)).
  destruct (alloc_ok at_ junk (width im) (height im) (format im) m) as (dst & m1 & A & E & PD & HD & UN); try lia.
  unfold copy. rewrite A.
  assert (WD : width dst = width im) by now rewrite E. assert (HH : height dst = height im) by now rewrite E. assert (BD : bytespp dst = bytespp im) by now rewrite E, B.
  assert (SD : stride dst = width im * formatToBPP (format im)) by now rewrite E. assert (DD : data dst = at_) by now rewrite E.
  assert (CV : forall a, covers dst a -> at_ <= a < at_ + width im * formatToBPP (format im) * height im).
  { intros a (x & y & k & (X & Y & K) & ->). unfold place. rewrite SD, DD, BD, B. rewrite WD in X. rewrite HH in Y. rewrite BD, B in K.
    pose proof (grid2 x (width im) k (formatToBPP (format im)) X K).
    pose proof (grid y (height im) (x * formatToBPP (format im) + k) (width im * formatToBPP (format im))). lia. }
  assert (UI : forall x y k, inImage im x y k -> pixel im m1 x y k = pixel im m x y k).
  { intros x y k I. unfold pixel. apply UN, FR. now exists x, y, k. }
  destruct (copyRows_ok dst im m1 (fun y => y) (u32 (formatToBPP (format im) * width im))) as (m2 & C & OC & V); auto; try congruence.
  - intros x y k I. rewrite UI by exact I. apply PR, I.
  - intros a A1 A2. now apply (FR a A2), CV.
  - rewrite BD, WD, B. unfold u32. rewrite Z.mod_small by lia. lia.
  - rewrite HH in C. rewrite C. exists dst, m2. split; [reflexivity|]. split; [exact PD|].
    assert (V' : forall x y k, inImage im x y k -> pixel dst m2 x y k = pixel im m x y k).
    { intros x y k I. rewrite V; [now apply UI|]. unfold inImage in *. now rewrite WD, HH, BD. }
    split. { intros x y k I. rewrite V'; [apply PR|]; unfold inImage in *; now rewrite WD, HH, BD in I. }
    repeat split; auto; [now rewrite E|]. intros a A1. rewrite OC; [now apply UN|]. intros CC. apply A1, CV, CC.
Qed.

(** ** Clearing *)
Lemma fill_ok n v d m : 0 <= n -> 0 < zlen v -> (forall i, 0 <= i < n * zlen v -> m (d + i) <> None) ->
  exists m', loop (Z.to_nat n) d (d + n * zlen v) (zlen v) (fun p m => store m p v) m = Some m' /\
    forall a, m' a = if (d <=? a) && (a <? d + n * zlen v) then nth_error v (Z.to_nat ((a - d) mod zlen v)) else m a.
Proof.
  intros N L H. destruct (cells_ok m n d (zlen v) d 0 (fun _ => v)) as (m' & C & P); auto; try lia.
  exists m'. split.
  - unfold cells in C. rewrite <- C. rewrite !loop_countZ by lia. apply count_ext. intros. rewrite Z.mul_0_r. reflexivity.
  - intros a. specialize (P a). destruct (_ && _); [|exact P]. destruct P as (w & _ & E). exact E.
Qed.
Lemma clearRows_ok im v m : proper im -> present im m -> bytespp im = zlen v -> 0 < zlen v ->
  exists m', clearRows im v m = Some m' /\ onlyChanges im m m' /\ forall x y k, inImage im x y k -> pixel im m' x y k = nth_error v (Z.to_nat k).
Proof.
  intros P PR L L0. pose proof P as (F & B & W & H & ST & HST). unfold clearRows. rewrite chk_some by (unfold isS32; nia).
  destruct (Z.eq_dec (width im) 0) as [W0|W1].
  - (* nothing to clear *)
    assert (NC : forall x y k, ~ inImage im x y k) by (intros x y k (X & _); lia).
    assert (N : forall k mm, (forall p m1, loop (Z.to_nat (width im)) p (p + width im * zlen v) (zlen v) (fun p m => store m p v) m1 = Some m1) ->
       forall p, exists mm', count k p (fun y m1 => loop (Z.to_nat (width im)) (data im + y * stride im) (data im + y * stride im + width im * zlen v) (zlen v) (fun p m => store m p v) m1) mm = Some mm' /\ mm' = mm).
    { intros k mm LP. induction k as [|k IH]; intros p; [now exists mm|]. cbn [count]. rewrite LP. apply IH. }
    assert (LP : forall p m1, loop (Z.to_nat (width im)) p (p + width im * zlen v) (zlen v) (fun p m => store m p v) m1 = Some m1).
    { intros p m1. rewrite W0. cbn [Z.to_nat loop]. replace (p <? p + 0 * zlen v) with false by lia. reflexivity. }
    destruct (Z.eq_dec (stride im) 0) as [S0|S1].
    + exists m. split.
      * rewrite S0, Z.mul_0_r, Z.add_0_r. destruct (Z.to_nat (height im)); cbn [loop]; rewrite Z.ltb_irrefl; reflexivity.
      * split; [now intros a|]. intros x y k I. now elim (NC x y k).
    + rewrite loop_countZ by lia. destruct (N (Z.to_nat (height im)) m LP 0) as (m' & C & ->). rewrite C. exists m. split; [reflexivity|].
      split; [now intros a|]. intros x y k I. now elim (NC x y k).
  - rewrite loop_countZ by nia.
    destruct (rows_ok im m (fun y m => loop (Z.to_nat (width im)) (data im + y * stride im) (data im + y * stride im + width im * zlen v) (zlen v) (fun p m => store m p v) m)
      (fun _ i => nth_error v (Z.to_nat (i mod zlen v))) P PR) as (m' & C & OC & V).
    + intros y i _ _. apply nth_error_Some. pose proof (Z.mod_pos_bound i (zlen v) L0). unfold zlen in *. lia.
    + intros y m1 Y UN PRS. destruct (fill_ok (width im) v (rowAt im y 0) m1) as (m' & C & E); auto; try lia.
      { intros i I. apply PRS. replace (rowAt im y 0 + i) with (rowAt im y i) by (unfold rowAt; lia). apply row_covers; auto. now rewrite L. }
      exists m'. replace (data im + y * stride im) with (rowAt im y 0) by (unfold rowAt; lia). split; [exact C|]. intros a. rewrite E. unfold inRow. now rewrite L.
    + exists m'. split; [exact C|]. split; [exact OC|]. intros x y k I. unfold pixel. rewrite place_row. rewrite V; [|apply I|now apply (inside_row _ _ y)].
      f_equal. f_equal. rewrite L. rewrite Z.add_comm, Z.mod_add by lia. apply Z.mod_small. rewrite <- L. apply I.
Qed.

(** ** Rows made of the rows of another image *)
Lemma cellRows_ok dst src m0 g c dS sS : proper dst -> proper src -> present dst m0 -> present src m0 -> apart dst src ->
  0 < width dst -> width src = width dst -> height src = height dst -> 0 < c -> 0 < dS -> 0 < sS -> bytespp dst = c * dS -> bytespp src = c * sS ->
  (forall v, length v = Z.to_nat sS -> zlen (g v) = dS) -> width dst * c < 2 ^ 31 ->
  exists m', count (Z.to_nat (height dst)) 0 (fun y m => do d <- getPixel dst 0 y; do s <- getPixel src 0 y; do n <- chk (width dst * c); cells n d dS s sS g m) m0 = Some m' /\
    onlyChanges dst m0 m' /\ forall x y q, 0 <= x < width dst -> 0 <= y < height dst -> 0 <= q < c ->
      exists v, load m0 (place src x y (q * sS)) (Z.to_nat sS) = Some v /\ forall j, 0 <= j < dS -> pixel dst m' x y (q * dS + j) = nth_error (g v) (Z.to_nat j).
Proof.
  intros PD PS HD HS AP W WE HE C0 D0 S0 BD BS LG BN.
  assert (NS : forall a, covers src a -> ~ covers dst a) by (intros a A1 A2; exact (AP a A2 A1)).
  assert (SRC : forall y i, 0 <= y < height src -> 0 <= i < width dst * c * sS -> m0 (rowAt src y i) <> None).
  { intros y i Y I. destruct (row_covers src y i PS Y) as (x & y' & k & II & E); [rewrite WE, BS; lia|]. destruct (HS _ _ _ II) as (b & B). unfold pixel in B. congruence. }
  assert (LD : forall y i, 0 <= y < height src -> 0 <= i < width dst * c * dS -> exists v, load m0 (rowAt src y (i / dS * sS)) (Z.to_nat sS) = Some v /\ length v = Z.to_nat sS).
  { intros y i Y I. destruct (load_ok (Z.to_nat sS) m0 (rowAt src y (i / dS * sS))) as (v & L1 & L2 & _); [|eauto].
    intros j J. replace (rowAt src y (i / dS * sS) + j) with (rowAt src y (i / dS * sS + j)) by (unfold rowAt; lia). apply SRC; auto.
    assert (0 <= i / dS < width dst * c) by (split; [apply Z.div_pos; lia|apply Z.div_lt_upper_bound; lia]). nia. }
  destruct (rows_ok dst m0 (fun y m => do d <- getPixel dst 0 y; do s <- getPixel src 0 y; do n <- chk (width dst * c); cells n d dS s sS g m)
    (fun y i => match load m0 (rowAt src y (i / dS * sS)) (Z.to_nat sS) with Some v => nth_error (g v) (Z.to_nat (i mod dS)) | None => None end) PD HD) as (m' & C & OC & V).
  - intros y i Y I. destruct (LD y i) as (v & -> & L2); [lia|rewrite BD in I; lia|]. apply nth_error_Some. pose proof (LG v L2) as G. pose proof (Z.mod_pos_bound i dS D0). unfold zlen in G. lia.
  - intros y m Y UN PRS. rewrite (getPixel_0 dst) by (auto; lia). rewrite (getPixel_0 src) by (auto; lia). rewrite chk_some by (unfold isS32; nia).
    assert (SM : forall i, 0 <= i < width dst * c * sS -> m (rowAt src y i) = m0 (rowAt src y i)).
    { intros i I. apply UN, NS, row_covers; auto; [lia|]. rewrite WE, BS. lia. }
    destruct (cells_ok m (width dst * c) (rowAt dst y 0) dS (rowAt src y 0) sS g) as (m' & C & E); auto; try nia.
    + intros i I. apply PRS. replace (rowAt dst y 0 + i) with (rowAt dst y i) by (unfold rowAt; lia). apply row_covers; auto. rewrite BD. lia.
    + intros i I. replace (rowAt src y 0 + i) with (rowAt src y i) by (unfold rowAt; lia). rewrite SM by lia. apply SRC; lia.
    + intros i j I J EQ. apply (AP (rowAt dst y i)); [apply row_covers; auto; rewrite BD; lia|].
      replace (rowAt dst y i) with (rowAt src y j) by (unfold rowAt in *; lia). apply row_covers; auto; [lia|rewrite WE, BS; lia].
    + exists m'. split; [exact C|]. intros a. specialize (E a). unfold inRow. rewrite BD.
      replace (width dst * (c * dS)) with (width dst * c * dS) by lia. destruct (_ && _) eqn:IR; [|exact E]. destruct E as (v & L & E).
      rewrite E. destruct (LD y (a - rowAt dst y 0)) as (v' & L' & _); [lia|lia|]. rewrite L'.
      replace (rowAt src y 0 + (a - rowAt dst y 0) / dS * sS) with (rowAt src y ((a - rowAt dst y 0) / dS * sS)) in L by (unfold rowAt; lia).
      rewrite (load_eq m m0) in L. { rewrite L' in L. now injection L as ->. }
      intros j J. replace (rowAt src y ((a - rowAt dst y 0) / dS * sS) + j) with (rowAt src y ((a - rowAt dst y 0) / dS * sS + j)) by (unfold rowAt; lia). apply SM.
      assert (0 <= (a - rowAt dst y 0) / dS < width dst * c) by (split; [apply Z.div_pos; lia|apply Z.div_lt_upper_bound; lia]). nia.
  - exists m'. split; [exact C|]. split; [exact OC|]. intros x y q X Y Q.
    pose proof (grid2 x (width dst) q c X Q) as R0.
    assert (R : 0 <= (x * c + q) * dS < width dst * c * dS) by nia.
    destruct (LD y ((x * c + q) * dS)) as (v & L & _); [lia|exact R|]. rewrite Z.div_mul in L by lia.
    exists v. split. { rewrite <- L. f_equal. rewrite place_row, BS. f_equal. lia. }
    intros j J. unfold pixel. rewrite place_row, BD. rewrite V; [|lia|rewrite BD; pose proof (grid2 (x * c + q) (width dst * c) j dS); lia].
    replace (x * (c * dS) + (q * dS + j)) with ((x * c + q) * dS + j) by lia.
    assert (Q1 : ((x * c + q) * dS + j) / dS = x * c + q) by (symmetry; apply (Z.div_unique _ _ _ j); lia).
    assert (Q2 : ((x * c + q) * dS + j) mod dS = j) by (symmetry; apply (Z.mod_unique _ _ (x * c + q)); lia).
    rewrite Q1, Q2, L. reflexivity.
Qed.

Lemma bytesOf_nth n z k : (k < n)%nat -> nth_error (bytesOf n z) k = Some ((z / 256 ^ Z.of_nat k) mod 256).
Proof.
  intros K. unfold bytesOf. rewrite nth_error_map. rewrite (nth_error_nth' _ 0%nat) by (rewrite seq_length; lia). rewrite seq_nth by lia. cbn [option_map Nat.add].
  do 2 f_equal. f_equal. change 256 with (2 ^ 8). rewrite <- Z.pow_mul_r by lia. reflexivity.
Qed.
Lemma bytesOf_len n z : length (bytesOf n z) = n.
Proof. unfold bytesOf. now rewrite map_length, seq_length. Qed.
Lemma valueOf_word4 m a z l : 0 <= z < 2 ^ 32 -> load m a 4 = Some l -> (forall k, 0 <= k < 4 -> m (a + k) = Some ((z / 256 ^ k) mod 256)) -> valueOf l = z.
Proof.
  intros Z32 L H. cbn [load] in L. pose proof (H 0) as H0. pose proof (H 1) as H1. pose proof (H 2) as H2. pose proof (H 3) as H3.
  rewrite Z.add_0_r in H0. rewrite H0 in L by lia. replace (a + 1 + 1) with (a + 2) in L by lia. replace (a + 2 + 1) with (a + 3) in L by lia.
  rewrite H1, H2, H3 in L by lia. injection L as <-. cbn [valueOf].
  change (256 ^ 0) with 1. change (256 ^ 1) with 256. change (256 ^ 2) with 65536. change (256 ^ 3) with 16777216. Z.div_mod_to_equations. lia.
Qed.

(** ** Half floats *)
Lemma half_form f : 0 <= f < 2 ^ 32 ->
  floatToHalf f = if 0x38800000 <=? f mod 2 ^ 31 then f / 2 ^ 31 * 2 ^ 15 + (f mod 2 ^ 31 / 2 ^ 13 - 0x1c000) mod 2 ^ 15 else 0.
Proof.
  intros F. unfold floatToHalf, u32, u16. cbv zeta.
  assert (D : (f + f) mod 2 ^ 32 = 2 * (f mod 2 ^ 31)) by (Z.div_mod_to_equations; lia). rewrite D.
  replace (0x71000000 <=? 2 * (f mod 2 ^ 31)) with (0x38800000 <=? f mod 2 ^ 31) by lia.
  destruct (0x38800000 <=? f mod 2 ^ 31) eqn:E.
  2:{ change ((- 0) mod 2 ^ 16) with 0. apply Z.land_0_r. }
  change ((- (1)) mod 2 ^ 16) with (Z.ones 16). rewrite Z.land_ones by lia.
  change 0x7fff with (Z.ones 15). rewrite Z.land_ones by lia. rewrite !Z.shiftr_div_pow2 by lia.
  assert (S1 : Z.land (f / 2 ^ 16) 0x8000 = f / 2 ^ 31 * 2 ^ 15).
  { assert (B : f / 2 ^ 31 = 0 \/ f / 2 ^ 31 = 1) by (Z.div_mod_to_equations; lia).
    replace (f / 2 ^ 31) with (f / 2 ^ 16 / 2 ^ 15) in * by (rewrite Z.div_div by lia; reflexivity).
    set (g := f / 2 ^ 16) in *. change 0x8000 with (Z.shiftl 1 15). rewrite <- (Z.shiftl_mul_pow2 (g / 2 ^ 15)) by lia. rewrite <- Z.shiftr_div_pow2 in * by lia.
    apply Z.bits_inj'. intros n N. rewrite Z.land_spec. rewrite !Z.shiftl_spec by lia. destruct (Z.eq_dec n 15) as [->|NE].
    - change (15 - 15) with 0. rewrite Z.shiftr_spec by lia. change (Z.testbit 1 0) with true. rewrite andb_true_r. reflexivity.
    - destruct (Z_lt_ge_dec n 15). { rewrite (Z.testbit_neg_r 1 (n - 15)), (Z.testbit_neg_r (Z.shiftr g 15) (n - 15)) by lia. apply andb_false_r. }
      assert (T1 : Z.testbit 1 (n - 15) = false) by (destruct (n - 15) as [|q|q] eqn:Q; [lia|destruct q; reflexivity|reflexivity]).
      rewrite T1, andb_false_r. destruct B as [->| ->]; [now rewrite Z.bits_0|now rewrite T1]. }
  rewrite S1.
  assert (Q : ((f / 2 ^ 13 - 0x1c000) mod 2 ^ 32) mod 2 ^ 15 = (f mod 2 ^ 31 / 2 ^ 13 - 0x1c000) mod 2 ^ 15).
  { assert (X : f / 2 ^ 13 = f mod 2 ^ 31 / 2 ^ 13 + f / 2 ^ 31 * 2 ^ 18) by (Z.div_mod_to_equations; lia). rewrite X.
    replace (f mod 2 ^ 31 / 2 ^ 13 + f / 2 ^ 31 * 2 ^ 18 - 0x1c000) with (f mod 2 ^ 31 / 2 ^ 13 - 0x1c000 + f / 2 ^ 31 * 2 ^ 18) by lia.
    set (w := f mod 2 ^ 31 / 2 ^ 13 - 0x1c000). set (t := f / 2 ^ 31). Z.div_mod_to_equations. lia. }
  rewrite Q. set (r := (f mod 2 ^ 31 / 2 ^ 13 - 0x1c000) mod 2 ^ 15). assert (R : 0 <= r < 2 ^ 15) by (apply Z.mod_pos_bound; lia).
  assert (B : 0 <= f / 2 ^ 31 < 2) by (Z.div_mod_to_equations; lia). rewrite (lor_add (f / 2 ^ 31) r 15) by lia.
  rewrite !(Z.mod_small _ (2 ^ 16)) by lia. lia.
Qed.
Lemma half_below p hm lo : 0 < p -> 0 <= lo -> (2 ^ 10 + hm) * (p * 2 ^ 13) <= (2 ^ 23 + (2 ^ 13 * hm + lo)) * p.
Proof. intros P L. replace ((2 ^ 10 + hm) * (p * 2 ^ 13)) with ((2 ^ 23 + 2 ^ 13 * hm) * p) by ring. apply Z.mul_le_mono_nonneg_r; lia. Qed.
Lemma half_above p hm lo : 0 < p -> lo < 2 ^ 13 -> (2 ^ 23 + (2 ^ 13 * hm + lo)) * p < (2 ^ 10 + (hm + 1)) * (2 ^ 13 * p).
Proof. intros P L. replace ((2 ^ 10 + (hm + 1)) * (2 ^ 13 * p)) with ((2 ^ 23 + 2 ^ 13 * hm + 2 ^ 13) * p) by ring. apply Z.mul_lt_mono_pos_r; lia. Qed.
Lemma half_normal f : 0 <= f < 2 ^ 32 -> 0x38800000 <= f mod 2 ^ 31 < 0x47800000 ->
  floatToHalf f / 2 ^ 15 = f / 2 ^ 31 /\ halfIsNormal (floatToHalf f) /\
  halfSize (floatToHalf f) <= singleSize f < normalValue 10 15 (floatToHalf f mod 2 ^ 15 + 1).
Proof.
  intros F R. rewrite half_form by exact F. replace (0x38800000 <=? f mod 2 ^ 31) with true by lia.
  set (a := f mod 2 ^ 31) in *. set (s := f / 2 ^ 31).
  assert (Q : 0x1c400 <= a / 2 ^ 13 < 0x23c00) by (Z.div_mod_to_equations; lia).
  rewrite (Z.mod_small (a / 2 ^ 13 - 0x1c000)) by lia. set (b := a / 2 ^ 13 - 0x1c000) in *.
  assert (H1 : (s * 2 ^ 15 + b) / 2 ^ 15 = s) by (symmetry; apply (Z.div_unique _ _ _ b); lia).
  assert (H2 : (s * 2 ^ 15 + b) mod 2 ^ 15 = b) by (symmetry; apply (Z.mod_unique _ _ s); lia).
  split; [exact H1|]. unfold halfIsNormal, halfSize, singleSize. rewrite H2. split. { Z.div_mod_to_equations. lia. }
  unfold normalValue. fold a.
  set (e := a / 2 ^ 23). set (mt := a mod 2 ^ 23).
  assert (E : 113 <= e <= 142) by (unfold e; Z.div_mod_to_equations; lia). assert (M : 0 <= mt < 2 ^ 23) by (apply Z.mod_pos_bound; lia).
  assert (AE : a = e * 2 ^ 23 + mt) by (unfold e, mt; pose proof (Z.div_mod a (2 ^ 23)); lia).
  assert (B1 : b = (e - 112) * 2 ^ 10 + mt / 2 ^ 13). { unfold b. rewrite AE. replace (e * 2 ^ 23 + mt) with (mt + e * 2 ^ 10 * 2 ^ 13) by lia. rewrite Z.div_add by lia. lia. }
  assert (MM : 0 <= mt / 2 ^ 13 < 2 ^ 10) by (Z.div_mod_to_equations; lia).
  assert (B2 : b / 2 ^ 10 = e - 112) by (symmetry; apply (Z.div_unique _ _ _ (mt / 2 ^ 13)); lia).
  assert (B3 : b mod 2 ^ 10 = mt / 2 ^ 13) by (symmetry; apply (Z.mod_unique _ _ (e - 112)); lia).
  rewrite B2, B3. replace (200 + (e - 112) - 15 - 10) with (50 + e + 13) by lia. replace (200 + e - 127 - 23) with (50 + e) by lia. rewrite (Z.pow_add_r 2 (50 + e) 13) by lia.
  pose proof (Z.pow_pos_nonneg 2 (50 + e)) as PP. assert (PP' : 0 < 2 ^ (50 + e)) by (apply PP; lia). clear PP.
  assert (MD : mt = 2 ^ 13 * (mt / 2 ^ 13) + mt mod 2 ^ 13) by (apply Z.div_mod; lia). assert (MR : 0 <= mt mod 2 ^ 13 < 2 ^ 13) by (apply Z.mod_pos_bound; lia).
  set (hm := mt / 2 ^ 13) in *. set (lo := mt mod 2 ^ 13) in *. split; [rewrite MD; apply half_below; [exact PP'|lia]|].
  destruct (Z.eq_dec hm (2 ^ 10 - 1)) as [C|C].
  - assert (B4 : (b + 1) / 2 ^ 10 = e - 111) by (symmetry; apply (Z.div_unique _ _ _ 0); lia).
    assert (B5 : (b + 1) mod 2 ^ 10 = 0) by (symmetry; apply (Z.mod_unique _ _ (e - 111)); lia). rewrite B4, B5.
    replace (200 + (e - 111) - 15 - 10) with (14 + (50 + e)) by lia. rewrite (Z.pow_add_r 2 14 (50 + e)) by lia.
    rewrite MD. replace ((2 ^ 10 + 0) * (2 ^ 14 * 2 ^ (50 + e))) with ((2 ^ 10 + (hm + 1)) * (2 ^ 13 * 2 ^ (50 + e))) by (rewrite C; ring). apply half_above; [exact PP'|lia].
  - assert (B4 : (b + 1) / 2 ^ 10 = e - 112) by (symmetry; apply (Z.div_unique _ _ _ (hm + 1)); lia).
    assert (B5 : (b + 1) mod 2 ^ 10 = hm + 1) by (symmetry; apply (Z.mod_unique _ _ (e - 112)); lia). rewrite B4, B5.
    replace (200 + (e - 112) - 15 - 10) with (13 + (50 + e)) by lia. rewrite (Z.pow_add_r 2 13 (50 + e)) by lia.
    rewrite MD. apply half_above; [exact PP'|lia].
Qed.
Lemma single_cut f t : 0 <= f < 2 ^ 32 -> 1 <= t <= 254 -> (t * 2 ^ 23 <= f mod 2 ^ 31 <-> 2 ^ (200 + t - 127) <= singleSize f).
Proof.
  intros F T. unfold singleSize, normalValue. set (a := f mod 2 ^ 31). assert (A : 0 <= a < 2 ^ 31) by (apply Z.mod_pos_bound; lia).
  set (e := a / 2 ^ 23). set (mt := a mod 2 ^ 23). assert (M : 0 <= mt < 2 ^ 23) by (apply Z.mod_pos_bound; lia).
  assert (AE : a = 2 ^ 23 * e + mt) by (apply Z.div_mod; lia). assert (E : 0 <= e < 256) by (Z.div_mod_to_equations; lia).
  pose proof (Z.pow_pos_nonneg 2 (200 + e - 127 - 23) ltac:(lia) ltac:(lia)) as PP.
  destruct (Z_le_gt_dec t e) as [L|G].
  - split; [intros _|lia]. replace (200 + t - 127) with (23 + (200 + t - 127 - 23)) by lia. rewrite Z.pow_add_r by lia.
    pose proof (Z.pow_le_mono_r 2 (200 + t - 127 - 23) (200 + e - 127 - 23) ltac:(lia) ltac:(lia)). 
    pose proof (Z.pow_pos_nonneg 2 (200 + t - 127 - 23) ltac:(lia) ltac:(lia)). apply Z.mul_le_mono_nonneg; lia.
  - split; [lia|]. intros X. exfalso.
    pose proof (Z.pow_le_mono_r 2 (24 + (200 + e - 127 - 23)) (200 + t - 127) ltac:(lia) ltac:(lia)) as Y. rewrite Z.pow_add_r in Y by lia.
    assert ((2 ^ 23 + mt) * 2 ^ (200 + e - 127 - 23) < 2 ^ 24 * 2 ^ (200 + e - 127 - 23)) by (apply Z.mul_lt_mono_pos_r; lia). lia.
Qed.
Lemma half_ok f : 0 <= f < 2 ^ 32 -> halfOf f (floatToHalf f).
Proof.
  intros F. pose proof (single_cut f 113 F ltac:(lia)) as C1. pose proof (single_cut f 143 F ltac:(lia)) as C2.
  change (200 + 113 - 127) with (200 - 14) in C1. change (200 + 143 - 127) with (200 + 16) in C2. split.
  - intros L. rewrite half_form by exact F. replace (0x38800000 <=? f mod 2 ^ 31) with false; [reflexivity|]. change 0x38800000 with (113 * 2 ^ 23). lia.
  - intros (L & G). apply half_normal; [exact F|]. change 0x38800000 with (113 * 2 ^ 23). change 0x47800000 with (143 * 2 ^ 23). lia.
Qed.

(** ** Whole operations *)
Lemma crop_ok im r m : proper im -> present im m -> isEmpty r = false -> (forall x y, inRect r x y -> inRect (getRect im) x y) ->
  exists c, crop im r = Some c /\ proper c /\ present c m /\ width c = maxX r - minX r /\ height c = maxY r - minY r /\
    forall x y k, inImage c x y k -> inImage im (minX r + x) (minY r + y) k /\ place c x y k = place im (minX r + x) (minY r + y) k.
Proof.
  intros P PR E SUB. pose proof P as (F & B & W & H & ST & HST). pose proof (bpp_range (format im)). rewrite <- B in *.
  apply containsRect_iff in SUB; [|exact E]. unfold crop. rewrite SUB. unfold containsRect, getRect in SUB. cbn in SUB. unfold isEmpty in E.
  destruct r as [x0 y0 x1 y1]. cbn [minX minY maxX maxY] in *. unfold rWidth, rHeight. cbn [minX minY maxX maxY].
  rewrite !chk_some by (unfold isS32; nia). unfold newImage. replace (format im <? 18) with true by lia. eexists. split; [reflexivity|].
  assert (INC : forall x y k, inImage (mkImage (data im + y0 * stride im + x0 * bytespp im) (stride im) (x1 - x0) (y1 - y0) (formatToBPP (format im)) (format im)) x y k ->
    inImage im (x0 + x) (y0 + y) k /\ place (mkImage (data im + y0 * stride im + x0 * bytespp im) (stride im) (x1 - x0) (y1 - y0) (formatToBPP (format im)) (format im)) x y k = place im (x0 + x) (y0 + y) k).
  { intros x y k (X & Y & K). cbn [width height bytespp] in X, Y, K. rewrite <- B in K. split; [unfold inImage; lia|]. unfold place. cbn [data stride bytespp]. rewrite <- B. lia. }
  split; [|split; [|split; [reflexivity|split; [reflexivity|exact INC]]]].
  - unfold proper. cbn [format bytespp width height stride]. rewrite <- B. repeat split; try lia; try nia.
  - intros x y k I. destruct (INC x y k I) as (I2 & E2). unfold pixel. rewrite E2. now apply PR.
Qed.
Lemma pixel_word im m x y off n z l : load m (place im x y off) (Z.to_nat n) = Some l -> word im m x y off n z -> forall k, 0 <= k < n -> nth_error l (Z.to_nat k) = Some ((z / 256 ^ k) mod 256).
Proof.
  intros L W k K. destruct (load_ok (Z.to_nat n) m (place im x y off)) as (l' & L1 & L2 & L3).
  - intros i I. specialize (W i ltac:(lia)). unfold pixel, place in *. replace (data im + y * stride im + x * bytespp im + off + i) with (data im + y * stride im + x * bytespp im + (off + i)) by lia. congruence.
  - rewrite L in L1. injection L1 as ->. rewrite L3 by lia. rewrite <- W by lia. unfold pixel, place. f_equal. lia.
Qed.
Lemma copy32Bit_ok dst src m : proper dst -> proper src -> present dst m -> present src m -> apart dst src ->
  0 < width dst -> bytespp dst = 4 -> bytespp src = 4 -> width src = width dst -> height src = height dst ->
  exists m', copy32Bit dst src m = Some m' /\ onlyChanges dst m m' /\ forall x y k, inImage dst x y k -> pixel dst m' x y k = pixel src m x y k.
Proof.
  intros PD PS HD HS AP W BD BS WE HE. unfold copy32Bit, sameDims.
  replace ((bytespp dst =? 4) && (bytespp src =? 4) && ((width dst =? width src) && (height dst =? height src))) with true by lia.
  destruct (cellRows_ok dst src m (fun v => v) 1 4 4) as (m' & C & OC & V); auto; try lia.
  - intros v L. unfold zlen. lia.
  - destruct PD as (_ & _ & ? & _). lia.
  - exists m'. split; [|split; [exact OC|]].
    + rewrite <- C. apply count_ext. intros y m1 _. rewrite Z.mul_1_r. rewrite chk_some by (destruct PD as (_ & _ & ? & _); unfold isS32; lia). reflexivity.
    + intros x y k (X & Y & K). destruct (V x y 0 X Y ltac:(lia)) as (v & L & E). rewrite BD in K. replace k with (0 * 4 + k) at 1 by lia. rewrite E by lia.
      destruct (load_ok 4 m (place src x y 0)) as (l & L1 & L2 & L3).
      * intros i I. destruct (HS x y i) as (b & B). { unfold inImage. lia. } unfold pixel, place in *. rewrite Z.add_0_r. congruence.
      * change (0 * 4) with 0 in L. change (Z.to_nat 4) with 4%nat in L. rewrite L in L1. injection L1 as ->. rewrite L3 by lia. unfold pixel, place. f_equal. lia.
Qed.
Lemma clear_ok im m : proper im -> present im m ->
  (forall value, bytespp im = 4 -> 0 <= value < 2 ^ 32 ->
     exists m', clear32 im value m = Some m' /\ onlyChanges im m m' /\ forall x y, 0 <= x < width im -> 0 <= y < height im -> word im m' x y 0 4 value) /\
  (forall bits, format im = fFloat -> 0 <= bits < 2 ^ 32 ->
     exists m', clearFloat im bits m = Some m' /\ onlyChanges im m m' /\ forall x y, 0 <= x < width im -> 0 <= y < height im -> word im m' x y 0 4 bits) /\
  (forall r g b a, format im = fFloat4 -> (forall c, In c [r; g; b; a] -> 0 <= c < 2 ^ 32) ->
     exists m', clearFloat4 im r g b a m = Some m' /\ onlyChanges im m m' /\
       forall x y, 0 <= x < width im -> 0 <= y < height im -> word im m' x y 0 4 r /\ word im m' x y 4 4 g /\ word im m' x y 8 4 b /\ word im m' x y 12 4 a).
Proof.
  intros P PR. pose proof P as (_ & B & _).
  assert (ONE : forall v, bytespp im = 4 -> 0 <= v < 2 ^ 32 -> exists m', clearRows im (bytesOf 4 (u32 v)) m = Some m' /\ onlyChanges im m m' /\ forall x y, 0 <= x < width im -> 0 <= y < height im -> word im m' x y 0 4 v).
  { intros v B4 V. destruct (clearRows_ok im (bytesOf 4 (u32 v)) m P PR) as (m' & C & OC & E).
    - unfold zlen. rewrite bytesOf_len. lia.
    - unfold zlen. rewrite bytesOf_len. lia.
    - exists m'. split; [exact C|]. split; [exact OC|]. intros x y X Y k K. rewrite E by (unfold inImage; lia). rewrite bytesOf_nth by lia. unfold u32. rewrite (Z.mod_small v) by lia. replace (Z.of_nat (Z.to_nat (0 + k))) with k by lia. reflexivity. }
  split; [|split].
  - intros v B4 V. unfold clear32. rewrite B4. apply ONE; auto.
  - intros v F V. assert (B4 : bytespp im = 4) by (rewrite B, F; reflexivity). unfold clearFloat, hasFormat. rewrite F, B4. apply ONE; auto.
  - intros r g b a F V. assert (B4 : bytespp im = 16) by (rewrite B, F; reflexivity). unfold clearFloat4, hasFormat. rewrite F, B4. cbn [Z.eqb Pos.eqb andb fFloat4].
    set (l := bytesOf 4 (u32 r) ++ bytesOf 4 (u32 g) ++ bytesOf 4 (u32 b) ++ bytesOf 4 (u32 a)).
    assert (LN : zlen l = 16) by (unfold l, zlen; rewrite !app_length, !bytesOf_len; reflexivity).
    destruct (clearRows_ok im l m P PR) as (m' & C & OC & E); [lia|lia|]. exists m'. split; [exact C|]. split; [exact OC|].
    assert (U : forall c, In c [r; g; b; a] -> u32 c = c) by (intros c I; apply Z.mod_small, V, I).
    intros x y X Y. repeat split; intros k K; rewrite E by (unfold inImage; lia); unfold l.
    + rewrite nth_error_app1 by (rewrite bytesOf_len; lia). rewrite bytesOf_nth by lia. rewrite U by (cbn; auto). replace (Z.of_nat (Z.to_nat (0 + k))) with k by lia. reflexivity.
    + rewrite nth_error_app2 by (rewrite bytesOf_len; lia). rewrite bytesOf_len. rewrite nth_error_app1 by (rewrite bytesOf_len; lia). rewrite bytesOf_nth by lia. rewrite U by (cbn; auto). replace (Z.of_nat (Z.to_nat (4 + k) - 4)) with k by lia. reflexivity.
    + do 2 (rewrite nth_error_app2 by (rewrite ?bytesOf_len; lia); rewrite bytesOf_len). rewrite nth_error_app1 by (rewrite bytesOf_len; lia). rewrite bytesOf_nth by lia. rewrite U by (cbn; auto). replace (Z.of_nat (Z.to_nat (8 + k) - 4 - 4)) with k by lia. reflexivity.
    + do 3 (rewrite nth_error_app2 by (rewrite ?bytesOf_len; lia); rewrite bytesOf_len). rewrite bytesOf_nth by lia. rewrite U by (cbn; auto 6). replace (Z.of_nat (Z.to_nat (12 + k) - 4 - 4 - 4)) with k by lia. reflexivity.
Qed.
Lemma halfBytes_len v : zlen (halfBytes v) = 2.
Proof. unfold halfBytes, zlen. now rewrite bytesOf_len. Qed.
Lemma halves_ok dst src m m' c : (forall x y q, 0 <= x < width dst -> 0 <= y < height dst -> 0 <= q < c ->
      exists v, load m (place src x y (q * 4)) (Z.to_nat 4) = Some v /\ forall j, 0 <= j < 2 -> pixel dst m' x y (q * 2 + j) = nth_error (halfBytes v) (Z.to_nat j)) -> halves dst src c m m'.
Proof.
  intros V x y q f X Y Q F WD. destruct (V x y q X Y Q) as (v & L & E).
  assert (VF : valueOf v = f).
  { apply (valueOf_word4 m (place src x y (q * 4))); auto. intros k K. rewrite <- WD by lia. unfold pixel, place. f_equal. lia. }
  exists (floatToHalf f). split; [|now apply half_ok]. intros k K. replace (2 * q + k) with (q * 2 + k) by lia. rewrite E by lia. unfold halfBytes. rewrite VF, bytesOf_nth by lia.
  rewrite Z2Nat.id by lia. reflexivity.
Qed.
Lemma convert_rows dst src c m : proper dst -> proper src -> present dst m -> present src m -> apart dst src ->
  0 < width dst -> width src = width dst -> height src = height dst -> 0 < c -> bytespp dst = 2 * c -> bytespp src = 4 * c ->
  exists m', convertRows dst src c m = Some m' /\ onlyChanges dst m m' /\ halves dst src c m m'.
Proof.
  intros PD PS HD HS AP W WE HE C0 BD BS. unfold convertRows.
  destruct (cellRows_ok dst src m halfBytes c 2 4) as (m' & C & OC & V); auto; try lia.
  - destruct PD as (_ & _ & _ & _ & ? & _). nia.
  - exists m'. split; [exact C|]. split; [exact OC|]. now apply halves_ok.
Qed.
Lemma convert_pixels dst src m : proper dst -> proper src -> present dst m -> present src m -> apart dst src ->
  0 < width dst -> width src = width dst -> height src = height dst -> format dst = fHalf -> format src = fFloat ->
  exists m', convertFloatToHalf dst src m = Some m' /\ onlyChanges dst m m' /\ halves dst src 1 m m'.
Proof.
  intros PD PS HD HS AP W WE HE FD FS. assert (BD : bytespp dst = 2) by (destruct PD as (_ & -> & _); rewrite FD; reflexivity).
  assert (BS : bytespp src = 4) by (destruct PS as (_ & -> & _); rewrite FS; reflexivity).
  unfold convertFloatToHalf, hasFormat, sameDims. rewrite FD, FS, BD, BS, WE, HE, !Z.eqb_refl. cbn [andb].
  destruct (convert_rows dst src 1 m) as (m' & C & R); auto; try lia. exists m'. split; [|exact R]. rewrite <- C. unfold convertRows. apply count_ext.
  intros y m1 Y. rewrite (getPixel_0 dst) by (auto; lia). rewrite (getPixel_0 src) by (auto; lia). rewrite chk_some by (destruct PD as (_ & _ & ? & _); unfold isS32; lia).
  unfold cells. rewrite Z.mul_1_r. rewrite loop_countZ by lia. apply count_ext. intros x m2 X.
  rewrite (getPixel_ok src) by (auto; lia). rewrite (getPixel_ok dst) by (auto; lia). rewrite BS, BD.
  replace ((rowAt dst y 0 + x * 2 - rowAt dst y 0) / 2) with x by (replace (rowAt dst y 0 + x * 2 - rowAt dst y 0) with (x * 2) by lia; now rewrite Z.div_mul by lia).
  replace (rowAt src y 0 + x * 4) with (rowAt src y (x * 4)) by (unfold rowAt; lia). replace (rowAt dst y 0 + x * 2) with (rowAt dst y (x * 2)) by (unfold rowAt; lia). reflexivity.
Qed.
Lemma convert_ok dst src m : proper dst -> proper src -> present dst m -> present src m -> apart dst src -> 0 < width dst -> width src = width dst -> height src = height dst ->
  (format dst = fHalf -> format src = fFloat -> exists m', convertFloatToHalf dst src m = Some m' /\ onlyChanges dst m m' /\ halves dst src 1 m m') /\
  (format dst = fHalf2 -> format src = fFloat2 -> exists m', convertFloat2ToHalf2 dst src m = Some m' /\ onlyChanges dst m m' /\ halves dst src 2 m m') /\
  (format dst = fHalf4 -> format src = fFloat4 -> exists m', convertFloat4ToHalf4 dst src m = Some m' /\ onlyChanges dst m m' /\ halves dst src 4 m m').
Proof.
  intros PD PS HD HS AP W WE HE. split; [|split]; intros FD FS; [now apply convert_pixels| |].
  - assert (BD : bytespp dst = 4) by (destruct PD as (_ & -> & _); rewrite FD; reflexivity). assert (BS : bytespp src = 8) by (destruct PS as (_ & -> & _); rewrite FS; reflexivity).
    unfold convertFloat2ToHalf2, hasFormat, sameDims. rewrite FD, FS, BD, BS, WE, HE, !Z.eqb_refl. cbn [andb]. apply convert_rows; auto; lia.
  - assert (BD : bytespp dst = 8) by (destruct PD as (_ & -> & _); rewrite FD; reflexivity). assert (BS : bytespp src = 16) by (destruct PS as (_ & -> & _); rewrite FS; reflexivity).
    unfold convertFloat4ToHalf4, hasFormat, sameDims. rewrite FD, FS, BD, BS, WE, HE, !Z.eqb_refl. cbn [andb]. apply convert_rows; auto; lia.
Qed.

Lemma expand_ok r dx dy : isEmpty r = false -> 0 <= dx -> 0 <= dy -> forall e, expand r dx dy = Some e ->
  forall x y, inRect e x y <-> exists x' y', inRect r x' y' /\ Z.abs (x - x') <= dx /\ Z.abs (y - y') <= dy.
Proof.
  unfold isEmpty, expand. intros E DX DY e X x y.
  destruct (chk (minX r - dx)) as [a|] eqn:A; [|discriminate]. destruct (chk (minY r - dy)) as [b|] eqn:B; [|discriminate].
  destruct (chk (maxX r + dx)) as [c|] eqn:C; [|discriminate]. destruct (chk (maxY r + dy)) as [d|] eqn:D; [|discriminate].
  apply chk_inv in A, B, C, D. injection X as <-. unfold inRect. cbn [minX minY maxX maxY]. split.
  - intros I. exists (Z.max (minX r) (Z.min x (maxX r - 1))), (Z.max (minY r) (Z.min y (maxY r - 1))). lia.
  - intros (x' & y' & I). lia.
Qed.
Lemma shrink_ok r dx dy : 0 <= dx -> 0 <= dy -> forall e, shrink r dx dy = Some e ->
  forall x y, inRect e x y <-> forall x' y', Z.abs (x - x') <= dx -> Z.abs (y - y') <= dy -> inRect r x' y'.
Proof.
  unfold shrink. intros DX DY e X x y.
  destruct (chk (minX r + dx)) as [a|] eqn:A; [|discriminate]. destruct (chk (minY r + dy)) as [b|] eqn:B; [|discriminate].
  destruct (chk (maxX r - dx)) as [c|] eqn:C; [|discriminate]. destruct (chk (maxY r - dy)) as [d|] eqn:D; [|discriminate].
  apply chk_inv in A, B, C, D. injection X as <-. unfold inRect. cbn [minX minY maxX maxY]. split.
  - intros I x' y' U V. lia.
  - intros H. pose proof (H (x - dx) (y - dy)). pose proof (H (x + dx) (y + dy)). lia.
Qed.
Lemma count_fail body n y m : (0 < n)%nat -> body y m = None -> count n y body m = None.
Proof. destruct n; [lia|]. intros _ H. cbn [count]. now rewrite H. Qed.
Lemma getPixel_empty im y : width im = 0 -> getPixel im 0 y = None.
Proof. intros W. unfold getPixel, containsPoint, getRect. cbn [minX minY maxX maxY]. rewrite W. cbn. rewrite ?andb_false_r. reflexivity. Qed.
Lemma no_columns dst src m : width dst = 0 -> 0 < height dst -> sameDims dst src = true -> verticalFlip dst src m = None /\ copy32Bit dst src m = None /\ convertRows dst src 4 m = None.
Proof.
  intros W H SD. unfold verticalFlip, copy32Bit, convertRows. repeat split.
  - destruct (_ && _); [|reflexivity]. apply count_fail; [lia|]. now rewrite getPixel_empty.
  - destruct (_ && _); [|reflexivity]. apply count_fail; [lia|]. now rewrite getPixel_empty.
  - apply count_fail; [lia|]. now rewrite getPixel_empty.
Qed.
Lemma upside_down im v m : stride im < 0 -> 0 < height im -> - 2 ^ 31 <= height im * stride im -> clearRows im v m = Some m.
Proof.
  intros ST H B. unfold clearRows. rewrite chk_some by (unfold isS32; nia). destruct (Z.to_nat (height im)); cbn [loop]; replace (data im <? data im + height im * stride im) with false by nia; reflexivity.
Qed.
