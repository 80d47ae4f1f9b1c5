(* Images as tables of pixels, rectangles as sets of points, floats as numbers. *)
From Verif Require Import ImageModel.

(** The points of a rectangle. *)
Definition inRect (r : rect) (x y : Z) : Prop := minX r <= x < maxX r /\ minY r <= y < maxY r.
Definition isS32 (z : Z) : Prop := - 2 ^ 31 <= z < 2 ^ 31.
Definition rectS32 (r : rect) : Prop := isS32 (minX r) /\ isS32 (minY r) /\ isS32 (maxX r) /\ isS32 (maxY r).

(** Byte [k] of the pixel in column x and row y. *)
Definition inImage (im : image) (x y k : Z) : Prop := 0 <= x < width im /\ 0 <= y < height im /\ 0 <= k < bytespp im.
Definition place (im : image) (x y k : Z) : Z := data im + y * stride im + x * bytespp im + k.
Definition pixel (im : image) (m : mem) (x y k : Z) : option Z := m (place im x y k).
Definition covers (im : image) (a : Z) : Prop := exists x y k, inImage im x y k /\ a = place im x y k.
(** An image in memory: its rows do not overlap, all of its pixels are there. *)
Definition proper (im : image) : Prop :=
  0 <= format im < 18 /\ bytespp im = formatToBPP (format im) /\ 0 <= width im < 2 ^ 31 /\ 0 <= height im < 2 ^ 31 /\
  width im * bytespp im <= stride im < 2 ^ 31 /\ height im * stride im < 2 ^ 31.
Definition present (im : image) (m : mem) : Prop := forall x y k, inImage im x y k -> exists b, pixel im m x y k = Some b.
Definition apart (a b : image) : Prop := forall p, covers a p -> covers b p -> False.
(** Nothing but the pixels of the image changes. *)
Definition onlyChanges (im : image) (m m' : mem) : Prop := forall a, ~ covers im a -> m' a = m a.

(** IEEE 754: a normal number of [p] mantissa bits and bias [b] in units of 2^-200, without its sign. *)
Definition normalValue (p b bits : Z) : Z := (2 ^ p + bits mod 2 ^ p) * 2 ^ (200 + bits / 2 ^ p - b - p).
Definition singleSize (bits : Z) : Z := normalValue 23 127 (bits mod 2 ^ 31).
Definition halfSize (bits : Z) : Z := normalValue 10 15 (bits mod 2 ^ 15).
Definition halfIsNormal (bits : Z) : Prop := 1 <= (bits mod 2 ^ 15) / 2 ^ 10 <= 30.
Definition singleIsNormal (bits : Z) : Prop := 1 <= (bits mod 2 ^ 31) / 2 ^ 23 <= 254.
(** What a single is as a half: too small ones are zero, the others lose the digits that do not fit. *)
Definition halfOf (f h : Z) : Prop :=
  (singleSize f < 2 ^ (200 - 14) -> h = 0) /\
  (2 ^ (200 - 14) <= singleSize f < 2 ^ (200 + 16) ->
     h / 2 ^ 15 = f / 2 ^ 31 /\ halfIsNormal h /\ halfSize h <= singleSize f < normalValue 10 15 (h mod 2 ^ 15 + 1)).
(** An [n]-byte number in a pixel, lowest byte first. *)
Definition word (im : image) (m : mem) (x y off n z : Z) : Prop := forall k, 0 <= k < n -> pixel im m x y (off + k) = Some ((z / 256 ^ k) mod 256).
(** Every half of the destination is made of the single in the same place. *)
Definition halves (dst src : image) (c : Z) (m m' : mem) : Prop := forall x y q f, 0 <= x < width dst -> 0 <= y < height dst -> 0 <= q < c -> 0 <= f < 2 ^ 32 ->
  word src m x y (4 * q) 4 f -> exists h, word dst m' x y (2 * q) 2 h /\ halfOf f h.
