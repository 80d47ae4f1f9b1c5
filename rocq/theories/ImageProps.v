(* C80: rectangles are sets of points; images are copied, cleared, cropped, flipped and converted pixel by pixel. *)
From Coq Require Import Lia ZifyBool ZifyNat.
From Verif Require Import ImageModel ImageSpec ImageProofs.

(** ** Rectangles *)
Theorem C80_rectangles : forall a b : rect,
  (forall x y, containsPoint a x y = true <-> inRect a x y) /\
  (isEmpty a = true <-> forall x y, ~ inRect a x y) /\
  (forall x y, inRect (intersect a b) x y <-> inRect a x y /\ inRect b x y) /\
  (intersects a b = true <-> exists x y, inRect a x y /\ inRect b x y) /\
  (isEmpty b = false -> (containsRect a b = true <-> forall x y, inRect b x y -> inRect a x y)) /\
  (isEmpty a = false -> isEmpty b = false ->
     (forall x y, inRect a x y \/ inRect b x y -> inRect (union a b) x y) /\
     (forall r, (forall x y, inRect a x y \/ inRect b x y -> inRect r x y) -> forall x y, inRect (union a b) x y -> inRect r x y)) /\
  (rectS32 a -> union emptyRect a = a /\ union a emptyRect = a).
Proof.
  intros a b. split; [intros; apply containsPoint_iff|]. split; [apply isEmpty_iff|]. split; [intros; apply intersect_iff|]. split; [apply intersects_iff|].
  split; [apply containsRect_iff|]. split; [|apply union_empty]. intros EA EB. split; [apply (union_least a b emptyRect EA EB)|]. intros r. apply (union_least a b r EA EB).
Qed.
Print Assumptions C80_rectangles.
Example C80_rectangles_ex : isEmpty (mkRect 1 2 5 6) = false /\ intersect (mkRect 1 2 5 6) (mkRect 3 0 9 4) = mkRect 3 2 5 4 /\ union (mkRect 1 2 5 6) (mkRect 3 0 9 4) = mkRect 1 0 9 6.
Proof. repeat split. Qed.
Theorem C80_margins : forall r dx dy e, 0 <= dx -> 0 <= dy ->
  (isEmpty r = false -> expand r dx dy = Some e -> forall x y, inRect e x y <-> exists x' y', inRect r x' y' /\ Z.abs (x - x') <= dx /\ Z.abs (y - y') <= dy) /\
  (shrink r dx dy = Some e -> forall x y, inRect e x y <-> forall x' y', Z.abs (x - x') <= dx -> Z.abs (y - y') <= dy -> inRect r x' y').
Proof. intros r dx dy e X Y. split; [intros E; now apply expand_ok|now apply shrink_ok]. Qed.
Print Assumptions C80_margins.
Example C80_margins_ex : expand (mkRect 1 2 5 6) 1 2 = Some (mkRect 0 0 6 8) /\ shrink (mkRect 1 2 5 6) 1 1 = Some (mkRect 2 3 4 5).
Proof. split; reflexivity. Qed.
(** Extending a rectangle to a point need not make it contain the point. *)
Theorem C80_point_refuted : forall r x y, isEmpty r = false -> maxX r <= x -> containsPoint (unionPoint r x y) x y = false.
Proof. intros r x y E X. unfold isEmpty in E. unfold containsPoint, unionPoint. cbn [minX minY maxX maxY]. lia. Qed.
Print Assumptions C80_point_refuted.
Example C80_point_refuted_ex : unionPoint (mkRect 0 0 2 2) 4 1 = mkRect 0 0 4 2 /\ containsPoint (mkRect 0 0 4 2) 4 1 = false.
Proof. split; reflexivity. Qed.
(** The "full" rectangle has no points at all. *)
Theorem C80_full_refuted : isEmpty fullRect = true /\ (forall x y, containsPoint fullRect x y = false) /\ forall r, isEmpty r = false -> containsRect fullRect r = false.
Proof.
  split; [reflexivity|]. split; [intros; unfold containsPoint, fullRect; cbn [minX minY maxX maxY]; lia|]. intros r E. unfold isEmpty in E. unfold containsRect, fullRect. cbn [minX minY maxX maxY]. lia.
Qed.
Print Assumptions C80_full_refuted.

(** ** Views *)
(** A 2x2 picture with wide rows, two more next to it, and bytes for all of them. *)
Definition exMem : mem := fun a => if (0 <=? a) && (a <? 1000) then Some (a mod 256) else None.
Definition exA : image := mkImage 100 12 2 2 4 fRGBA.
Definition exB : image := mkImage 200 8 2 2 4 fRGBA.
Definition exF : image := mkImage 300 12 2 2 4 fFloat.
Definition exH : image := mkImage 400 4 2 2 2 fHalf.
Lemma ex_proper : proper exA /\ proper exB /\ proper exF /\ proper exH.
Proof. repeat split; try reflexivity; vm_compute; discriminate. Qed.
Lemma ex_present im : In im [exA; exB; exF; exH] -> present im exMem.
Proof.
  intros [<-|[<-|[<-|[<-|[]]]]] x y k (X & Y & K); cbn in X, Y, K; unfold pixel, place, exMem; cbn [data stride bytespp exA exB exF exH];
  match goal with |- exists b, (if ?c then _ else _) = _ => replace c with true by lia end; eauto.
Qed.
Lemma ex_apart : apart exB exA /\ apart exH exF.
Proof.
  split; intros p (x & y & k & (X & Y & K) & ->) (x' & y' & k' & (X' & Y' & K') & E); cbn in X, Y, K, X', Y', K'; unfold place in E; cbn [data stride bytespp exA exB exF exH] in E; lia.
Qed.
Theorem C80_crop_partial : forall im r m, proper im -> present im m -> isEmpty r = false -> (forall x y, inRect r x y -> inRect (getRect im) x y) ->
  exists c, crop im r = Some c /\ proper c /\ present c m /\ width c = maxX r - minX r /\ height c = maxY r - minY r /\
    forall x y k, inImage c x y k -> inImage im (minX r + x) (minY r + y) k /\ place c x y k = place im (minX r + x) (minY r + y) k.
Proof. exact crop_ok. Qed.
Print Assumptions C80_crop_partial.
Example C80_crop_ex : proper exA /\ present exA exMem /\ crop exA (mkRect 1 0 2 2) = Some (mkImage 104 12 1 2 4 fRGBA).
Proof. split; [apply ex_proper|]. split; [apply ex_present; cbn; auto|reflexivity]. Qed.
(** A rectangle turned inside out is taken for a part of the image; the result has a negative size. *)
Theorem C80_inverted_refuted : forall im, proper im -> 2 <= width im -> 1 <= height im ->
  exists c, crop im (mkRect (width im) 0 0 1) = Some c /\ width c = - width im /\ data c = data im + width im * bytespp im.
Proof.
  intros im (F & B & W & H & ST & HS) W2 H1. unfold crop, containsRect, getRect. cbn [minX minY maxX maxY].
  replace ((0 <=? width im) && (0 <=? 0) && ((0 <=? width im) && (1 <=? height im))) with true by lia.
  pose proof (bpp_range (format im)) as R. rewrite <- B in R. rewrite !chk_some by (unfold isS32; nia). unfold rWidth, rHeight. cbn [minX minY maxX maxY]. rewrite !chk_some by (unfold isS32; lia).
  unfold newImage. replace (format im <? 18) with true by lia. eexists. split; [reflexivity|]. cbn [width data]. lia.
Qed.
Print Assumptions C80_inverted_refuted.

(** ** Copies *)
Theorem C80_copy_partial : forall at_ junk im m, proper im -> present im m -> 0 < width im -> height im * (width im * bytespp im) < 2 ^ 31 ->
  (forall a, covers im a -> ~ (at_ <= a < at_ + width im * bytespp im * height im)) ->
  exists dst m', copy at_ junk im m = Some (dst, m') /\ proper dst /\ present dst m' /\ width dst = width im /\ height dst = height im /\ format dst = format im /\
    (forall x y k, inImage im x y k -> pixel dst m' x y k = pixel im m x y k) /\
    (forall a, ~ (at_ <= a < at_ + width im * bytespp im * height im) -> m' a = m a).
Proof. exact copy_ok. Qed.
Print Assumptions C80_copy_partial.
Theorem C80_flip_partial : forall dst src m, proper dst -> proper src -> present dst m -> present src m -> apart dst src ->
  0 < width dst -> format dst = format src -> width src = width dst -> height src = height dst ->
  exists m', verticalFlip dst src m = Some m' /\ onlyChanges dst m m' /\
    forall x y k, inImage dst x y k -> pixel dst m' x y k = pixel src m x (height dst - 1 - y) k.
Proof. exact verticalFlip_ok. Qed.
Print Assumptions C80_flip_partial.
Theorem C80_copy32_partial : forall dst src m, proper dst -> proper src -> present dst m -> present src m -> apart dst src ->
  0 < width dst -> bytespp dst = 4 -> bytespp src = 4 -> width src = width dst -> height src = height dst ->
  exists m', copy32Bit dst src m = Some m' /\ onlyChanges dst m m' /\ forall x y k, inImage dst x y k -> pixel dst m' x y k = pixel src m x y k.
Proof. exact copy32Bit_ok. Qed.
Print Assumptions C80_copy32_partial.
Example C80_copies_ex : proper exA /\ proper exB /\ present exA exMem /\ present exB exMem /\ apart exB exA /\
  (exists dst m', copy 500 (fun _ => 7) exA exMem = Some (dst, m') /\ pixel dst m' 1 1 2 = Some 118) /\
  (exists m', verticalFlip exB exA exMem = Some m' /\ pixel exB m' 1 0 2 = Some 118) /\
  (exists m', copy32Bit exB exA exMem = Some m' /\ pixel exB m' 1 0 2 = Some 106).
Proof.
  split; [apply ex_proper|]. split; [apply ex_proper|]. split; [apply ex_present; cbn; auto|]. split; [apply ex_present; cbn; auto|]. split; [apply ex_apart|].
  split; [eexists _, _; split; [vm_compute; reflexivity|vm_compute; reflexivity]|]. split; (eexists; split; [vm_compute; reflexivity|vm_compute; reflexivity]).
Qed.
(** Images without columns cannot be copied, flipped or converted. *)
Theorem C80_columns_refuted : forall dst src m, width dst = 0 -> 0 < height dst -> sameDims dst src = true ->
  verticalFlip dst src m = None /\ copy32Bit dst src m = None /\ convertRows dst src 4 m = None.
Proof. exact no_columns. Qed.
Print Assumptions C80_columns_refuted.
Example C80_columns_refuted_ex : proper (mkImage 0 0 0 5 4 fRGBA) /\ copy 500 (fun _ => 0) (mkImage 0 0 0 5 4 fRGBA) exMem = None.
Proof. split; [repeat split; try reflexivity; vm_compute; discriminate|reflexivity]. Qed.
(** Turning an image over in place loses half of it. *)
Theorem C80_in_place_refuted : exists im m m', proper im /\ present im m /\ verticalFlip im im m = Some m' /\
  pixel im m' 0 1 0 <> pixel im m 0 0 0 /\ forall x y k, inImage im x y k -> pixel im m' x y k = pixel im m x 1 k.
Proof.
  exists (mkImage 100 1 1 2 1 fByte), exMem. eexists. split; [repeat split; try reflexivity; vm_compute; discriminate|]. split.
  { intros x y k (X & Y & K). cbn in X, Y, K. unfold pixel, place, exMem. cbn [data stride bytespp]. replace ((0 <=? 100 + y * 1 + x * 1 + k) && (100 + y * 1 + x * 1 + k <? 1000)) with true by lia. eauto. }
  split; [reflexivity|]. split; [vm_compute; discriminate|]. intros x y k (X & Y & K). cbn in X, Y, K.
  assert (y = 0 \/ y = 1) as [-> | ->] by lia; replace x with 0 by lia; replace k with 0 by lia; reflexivity.
Qed.
Print Assumptions C80_in_place_refuted.
(** The number of bytes of an image is computed in 32 bits. *)
Theorem C80_large_refuted : forall at_ junk m, allocImage at_ junk 32768 32768 fRGBA m = None.
Proof. reflexivity. Qed.
Print Assumptions C80_large_refuted.

(** ** Clearing *)
Theorem C80_clear : forall im m, proper im -> present im m ->
  (forall value, bytespp im = 4 -> 0 <= value < 2 ^ 32 ->
     exists m', clear32 im value m = Some m' /\ onlyChanges im m m' /\ forall x y, 0 <= x < width im -> 0 <= y < height im -> word im m' x y 0 4 value) /\
  (forall bits, format im = fFloat -> 0 <= bits < 2 ^ 32 ->
     exists m', clearFloat im bits m = Some m' /\ onlyChanges im m m' /\ forall x y, 0 <= x < width im -> 0 <= y < height im -> word im m' x y 0 4 bits) /\
  (forall r g b a, format im = fFloat4 -> (forall c, In c [r; g; b; a] -> 0 <= c < 2 ^ 32) ->
     exists m', clearFloat4 im r g b a m = Some m' /\ onlyChanges im m m' /\
       forall x y, 0 <= x < width im -> 0 <= y < height im -> word im m' x y 0 4 r /\ word im m' x y 4 4 g /\ word im m' x y 8 4 b /\ word im m' x y 12 4 a).
Proof. exact clear_ok. Qed.
Print Assumptions C80_clear.
Example C80_clear_ex : exists m', clear32 exA 0x11223344 exMem = Some m' /\ pixel exA m' 1 1 0 = Some 0x44 /\ m' 108 = Some 108.
Proof. eexists. split; [vm_compute; reflexivity|]. split; vm_compute; reflexivity. Qed.
(** Images whose rows are stored upwards (the stride is negative) are not cleared at all. *)
Theorem C80_upwards_refuted : forall im v m, stride im < 0 -> 0 < height im -> - 2 ^ 31 <= height im * stride im -> clearRows im v m = Some m.
Proof. exact upside_down. Qed.
Print Assumptions C80_upwards_refuted.
Example C80_upwards_refuted_ex : clear32 (mkImage 112 (-12) 2 2 4 fRGBA) 0 exMem = Some exMem /\ getPixel (mkImage 112 (-12) 2 2 4 fRGBA) 1 1 = Some 104.
Proof. split; reflexivity. Qed.

(** ** Conversion to half floats *)
Theorem C80_half_partial : forall f, 0 <= f < 2 ^ 32 -> halfOf f (floatToHalf f).
Proof. exact half_ok. Qed.
Print Assumptions C80_half_partial.
Example C80_half_ex : floatToHalf 0x3f800000 = 0x3c00 /\ floatToHalf 0xc0490fdb = 0xc248.
Proof. split; reflexivity. Qed.
Theorem C80_convert_partial : forall dst src m, proper dst -> proper src -> present dst m -> present src m -> apart dst src ->
  0 < width dst -> width src = width dst -> height src = height dst ->
  (format dst = fHalf -> format src = fFloat -> exists m', convertFloatToHalf dst src m = Some m' /\ onlyChanges dst m m' /\ halves dst src 1 m m') /\
  (format dst = fHalf2 -> format src = fFloat2 -> exists m', convertFloat2ToHalf2 dst src m = Some m' /\ onlyChanges dst m m' /\ halves dst src 2 m m') /\
  (format dst = fHalf4 -> format src = fFloat4 -> exists m', convertFloat4ToHalf4 dst src m = Some m' /\ onlyChanges dst m m' /\ halves dst src 4 m m').
Proof. exact convert_ok. Qed.
Print Assumptions C80_convert_partial.
Example C80_convert_ex : proper exH /\ proper exF /\ present exH exMem /\ present exF exMem /\ apart exH exF /\
  exists m1 m', clearFloat exF 0x40490fdb exMem = Some m1 /\ convertFloatToHalf exH exF m1 = Some m' /\ pixel exH m' 1 1 0 = Some 0x48 /\ pixel exH m' 1 1 1 = Some 0x42.
Proof.
  split; [apply ex_proper|]. split; [apply ex_proper|]. split; [apply ex_present; cbn; auto|]. split; [apply ex_present; cbn; auto|]. split; [apply ex_apart|].
  eexists _, _. split; [vm_compute; reflexivity|]. split; [vm_compute; reflexivity|]. split; vm_compute; reflexivity.
Qed.
(** Without the assertion (the image conversions have none) infinity becomes one, 131072 becomes zero; and minus zero loses its sign. *)
Theorem C80_infinity_refuted : floatToHalf 0x7f800000 = 0x3c00 /\ floatToHalf 0x48000000 = 0 /\ floatToHalf 0x80000000 = 0 /\
  forall f, 0 <= f < 2 ^ 32 -> 2 ^ 31 <= f mod 2 ^ 31 + 2 ^ 31 < 2 ^ 31 + 113 * 2 ^ 23 -> floatToHalf f = 0.
Proof.
  split; [reflexivity|]. split; [reflexivity|]. split; [reflexivity|]. intros f F R. rewrite half_form by exact F. replace (0x38800000 <=? f mod 2 ^ 31) with false by lia. reflexivity.
Qed.
Print Assumptions C80_infinity_refuted.

(** ** Colors *)
Theorem C80_rgba : forall r g b a, bytes_ok [r; g; b; a] -> toRGBA r g b a = r + 2 ^ 8 * g + 2 ^ 16 * b + 2 ^ 24 * a.
Proof. intros r g b a _. unfold toRGBA. cbn [valueOf]. lia. Qed.
Print Assumptions C80_rgba.
(** In the other byte order the first channel lands on the second. *)
Theorem C80_abgr_refuted : forall x, toABGR x 0 0 0 = toABGR 0 x 0 0.
Proof. intros x. unfold toABGR. rewrite !Z.shiftl_0_l, !Z.lor_0_l, !Z.lor_0_r. reflexivity. Qed.
Print Assumptions C80_abgr_refuted.
Example C80_abgr_refuted_ex : toABGR 0x12 0 0 0 = 0x120000 /\ toABGR 0x12 0x34 0x56 0x78 = 0x365678.
Proof. split; reflexivity. Qed.
