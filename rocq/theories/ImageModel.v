(* Model of images and rectangles: SRC/image/image/image/Image.h, Image.cpp, SRC/math/math/ply-math/Box.h (of IntVec2),
   IntVector.h, Half.h (SRC = /repo/repos/plywood/src).
   Memory is a map from addresses to bytes, undefined where nothing is allocated; [None] is a failing assertion, an access
   outside of what is allocated, an overflow of s32 or memcpy between overlapping places. Machines are little endian. *)
From Verif Require Export Base.
Local Notation "'do' x <- e ; f" := (match e with Some x => f | None => None end) (at level 200, x pattern, e at level 100, f at level 200).

(** ** Rectangles *)
(** Box.h:11-15 with V = IntVec2: [mins] and [maxs]. *)
Record rect := mkRect { minX : Z; minY : Z; maxX : Z; maxY : Z }.
(** A value of type s32; arithmetic beyond it is undefined. *)
Definition chk (z : Z) : option Z := if (- 2 ^ 31 <=? z) && (z <? 2 ^ 31) then Some z else None.
(** Box.h:152-154, 156-158 [contains]; IntVector.h:168-175; BoolVector.h [all]. *)
Definition containsPoint (r : rect) (x y : Z) : bool := ((minX r <=? x) && (minY r <=? y)) && ((x <? maxX r) && (y <? maxY r)).
Definition containsRect (r q : rect) : bool :=
  ((minX r <=? minX q) && (minY r <=? minY q)) && ((maxX q <=? maxX r) && (maxY q <=? maxY r)).
(** Box.h:93-95 [isEmpty]. *)
Definition isEmpty (r : rect) : bool := (maxX r <=? minX r) || (maxY r <=? minY r).
(** Box.h:97-103 [width], [height]. *)
Definition rWidth (r : rect) : option Z := chk (maxX r - minX r).
Definition rHeight (r : rect) : option Z := chk (maxY r - minY r).
(** Box.h:30-32 [fromSize]. *)
Definition fromSize (x y w h : Z) : option rect := do x' <- chk (x + w); do y' <- chk (y + h); Some (mkRect x y x' y').
(** Box.h:110-112 [expand], 114-116 [shrink]. *)
Definition expand (r : rect) (x y : Z) : option rect :=
  do x0 <- chk (minX r - x); do y0 <- chk (minY r - y); do x1 <- chk (maxX r + x); do y1 <- chk (maxY r + y); Some (mkRect x0 y0 x1 y1).
Definition shrink (r : rect) (x y : Z) : option rect :=
  do x0 <- chk (minX r + x); do y0 <- chk (minY r + y); do x1 <- chk (maxX r - x); do y1 <- chk (maxY r - y); Some (mkRect x0 y0 x1 y1).
(** Box.h:182-185, 187-190 [makeUnion], 192-195 [intersect], 160-162 [intersects], 197-200 [makeSolid]. *)
Definition unionPoint (r : rect) (x y : Z) : rect := mkRect (Z.min (minX r) x) (Z.min (minY r) y) (Z.max (maxX r) x) (Z.max (maxY r) y).
Definition union (a b : rect) : rect :=
  mkRect (Z.min (minX a) (minX b)) (Z.min (minY a) (minY b)) (Z.max (maxX a) (maxX b)) (Z.max (maxY a) (maxY b)).
Definition intersect (a b : rect) : rect :=
  mkRect (Z.max (minX a) (minX b)) (Z.max (minY a) (minY b)) (Z.min (maxX a) (maxX b)) (Z.min (maxY a) (maxY b)).
Definition intersects (a b : rect) : bool := negb (isEmpty (intersect a b)).
Definition makeSolid (a : rect) : rect :=
  mkRect (Z.min (minX a) (maxX a)) (Z.min (minY a) (maxY a)) (Z.max (minX a) (maxX a)) (Z.max (minY a) (maxY a)).
(** Box.h:168-170 [empty], 172-174 [full] (Limits of s32). *)
Definition emptyRect : rect := mkRect (2 ^ 31 - 1) (2 ^ 31 - 1) (- 2 ^ 31) (- 2 ^ 31).
Definition fullRect : rect := mkRect (- 2 ^ 31) (- 2 ^ 31) (- 2 ^ 31) (- 2 ^ 31).

(** ** Memory *)
Definition mem := Z -> option Z.
Fixpoint load (m : mem) (a : Z) (n : nat) : option (list Z) :=
  match n with O => Some [] | S n => do b <- m a; do l <- load m (a + 1) n; Some (b :: l) end.
Fixpoint store (m : mem) (a : Z) (l : list Z) : option mem :=
  match l with
  | [] => Some m
  | b :: l => do _ <- m a; store (fun x => if x =? a then Some b else m x) (a + 1) l
  end.
(** memcpy. *)
Definition copyBytes (d s n : Z) (m : mem) : option mem :=
  if (0 <? n) && (d <? s + n) && (s <? d + n) then None
  else do l <- load m s (Z.to_nat n); store m d l.
(** while (p < pEnd) { body; p += step; } *)
Fixpoint loop (fuel : nat) (p pEnd step : Z) (body : Z -> mem -> option mem) (m : mem) : option mem :=
  if p <? pEnd then
    match fuel with
    | O => None
    | S f => do m <- body p m; loop f (p + step) pEnd step body m
    end
  else Some m.
(** for (y = 0; y < n; y++) *)
Fixpoint count (n : nat) (y : Z) (body : Z -> mem -> option mem) (m : mem) : option mem :=
  match n with O => Some m | S n => do m <- body y m; count n (y + 1) body m end.

(** ** Images *)
(** Image.cpp:11-30 (numbered as in Image.h:11-32). *)
Definition bppTable : list Z := [0; 1; 1; 2; 4; 4; 4; 4; 4; 2; 2; 4; 2; 8; 4; 16; 8; 4].
Definition fByte : Z := 2. Definition fRGBA : Z := 4. Definition fFloat : Z := 8. Definition fHalf : Z := 12. Definition fFloat2 : Z := 13.
Definition fHalf2 : Z := 14. Definition fFloat4 : Z := 15. Definition fHalf4 : Z := 16.
Definition formatToBPP (f : Z) : Z := nth (Z.to_nat f) bppTable 0.
(** Image.h:50-58. *)
Record image := mkImage { data : Z; stride : Z; width : Z; height : Z; bytespp : Z; format : Z }.
(** Image.h:61-65. *)
Definition newImage (d s w h f : Z) : option image := if f <? 18 then Some (mkImage d s w h (formatToBPP f) f) else None.
(** Image.h:120-122 [getRect], 124-132 [getPixel]. *)
Definition getRect (im : image) : rect := mkRect 0 0 (width im) (height im).
Definition getPixel (im : image) (x y : Z) : option Z :=
  if containsPoint (getRect im) x y then
    do a <- chk (y * stride im); do b <- chk (x * bytespp im); Some (data im + a + b)
  else None.
(** Image.h:86-103: what an image is. *)
Definition hasFormat (im : image) (f b : Z) : bool := (format im =? f) && (bytespp im =? b).
(** Image.h:108-110 [sameDims]. *)
Definition sameDims (a b : image) : bool := (width a =? width b) && (height a =? height b).
(** Image.h:214-218 [crop]. *)
Definition crop (im : image) (r : rect) : option image :=
  if containsRect (getRect im) r then
    do a <- chk (minY r * stride im); do b <- chk (minX r * bytespp im); do w <- rWidth r; do h <- rHeight r;
    newImage (data im + a + b) (stride im) w h (format im)
  else None.
(** Image.h:150-166 [OwnImage], [alloc]: the heap gives the place [at] and whatever bytes [junk] are there. *)
Definition allocImage (at_ : Z) (junk : Z -> Z) (w h f : Z) (m : mem) : option (image * mem) :=
  if f <? 18 then
    do s <- chk (w * formatToBPP f);
    do n <- chk (s * h);
    if n <? 0 then None
    else Some (mkImage at_ s w h (formatToBPP f) f, fun a => if (at_ <=? a) && (a <? at_ + n) then Some (junk a) else m a)
  else None.
(** Image.cpp:60-67 [copy]. *)
Definition copy (at_ : Z) (junk : Z -> Z) (im : image) (m : mem) : option (image * mem) :=
  do (dst, m) <- allocImage at_ junk (width im) (height im) (format im) m;
  let bytesPerRow := u32 (formatToBPP (format im) * width im) in
  do m <- count (Z.to_nat (height im)) 0
    (fun y m => do d <- getPixel dst 0 y; do s <- getPixel im 0 y; copyBytes d s bytesPerRow m) m;
  Some (dst, m).
(** Image.cpp:69-83, 85-99, 101-115 [clear]: the loops; the bytes of a pixel are [v]. *)
Definition clearRows (im : image) (v : list Z) (m : mem) : option mem :=
  do n <- chk (height im * stride im);
  loop (Z.to_nat (height im)) (data im) (data im + n) (stride im)
    (fun row m => loop (Z.to_nat (width im)) row (row + width im * zlen v) (zlen v) (fun p m => store m p v) m) m.
(** The bytes of an integer. *)
Definition bytesOf (n : nat) (z : Z) : list Z := map (fun i => (z / 2 ^ (8 * Z.of_nat i)) mod 256) (seq 0 n).
Fixpoint valueOf (l : list Z) : Z := match l with [] => 0 | b :: l => b + 256 * valueOf l end.
Definition clear32 (im : image) (value : Z) (m : mem) : option mem :=
  if bytespp im =? 4 then clearRows im (bytesOf 4 (u32 value)) m else None.
Definition clearFloat (im : image) (bits : Z) (m : mem) : option mem :=
  if hasFormat im fFloat 4 then clearRows im (bytesOf 4 (u32 bits)) m else None.
Definition clearFloat4 (im : image) (x y z w : Z) (m : mem) : option mem :=
  if hasFormat im fFloat4 16 then clearRows im (bytesOf 4 (u32 x) ++ bytesOf 4 (u32 y) ++ bytesOf 4 (u32 z) ++ bytesOf 4 (u32 w)) m else None.
(** Image.cpp:117-125 [verticalFlip]. *)
Definition verticalFlip (dst src : image) (m : mem) : option mem :=
  if (format dst =? format src) && sameDims src dst then
    count (Z.to_nat (height dst)) 0
      (fun y m => do d <- getPixel dst 0 y; do s <- getPixel src 0 (height dst - 1 - y);
                  copyBytes d s (formatToBPP (format dst) * width dst) m) m
  else None.
(** A row of cells, each made of one of another row (the pointers [d] and [s] move together). *)
Definition cells (n d dSize s sSize : Z) (g : list Z -> list Z) (m : mem) : option mem :=
  loop (Z.to_nat n) d (d + n * dSize) dSize
    (fun p m => do v <- load m (s + (p - d) / dSize * sSize) (Z.to_nat sSize); store m p (g v)) m.
(** Image.cpp:127-142 [copy32Bit]. *)
Definition copy32Bit (dst src : image) (m : mem) : option mem :=
  if (bytespp dst =? 4) && (bytespp src =? 4) && sameDims dst src then
    count (Z.to_nat (height dst)) 0
      (fun y m => do d <- getPixel dst 0 y; do s <- getPixel src 0 y; cells (width dst) d 4 s 4 (fun v => v) m) m
  else None.
(** Image.cpp:151-158, 173-180, 197-204, Half.h:14-22: a float to a half float. *)
Definition floatToHalf (single : Z) : Z :=
  let zeroMask := u16 (- (if 0x71000000 <=? u32 (single + single) then 1 else 0)) in
  let half := u16 (Z.lor (Z.land (Z.shiftr single 16) 0x8000) (Z.land (u32 (Z.shiftr single 13 - 0x1c000)) 0x7fff)) in
  Z.land half zeroMask.
Definition halfBytes (v : list Z) : list Z := bytesOf 2 (floatToHalf (valueOf v)).
(** Half.h:12-22 [floatToHalf] of Half.h, with its assertion (65000 is 0x477de800). *)
Definition floatToHalfChecked (single : Z) : option Z := if single mod 2 ^ 31 <? 0x477de800 then Some (floatToHalf single) else None.
(** Image.cpp:144-161 [convertFloatToHalf]. *)
Definition convertFloatToHalf (dst src : image) (m : mem) : option mem :=
  if hasFormat dst fHalf 2 && hasFormat src fFloat 4 && sameDims dst src then
    count (Z.to_nat (height dst)) 0
      (fun y m => count (Z.to_nat (width dst)) 0
        (fun x m => do s <- getPixel src x y; do v <- load m s 4; do d <- getPixel dst x y; store m d (halfBytes v)) m) m
  else None.
(** Image.cpp:163-185 [convertFloat4ToHalf4], 187-209 [convertFloat2ToHalf2]: [c] channels. *)
Definition convertRows (dst src : image) (c : Z) (m : mem) : option mem :=
  count (Z.to_nat (height dst)) 0
    (fun y m => do d <- getPixel dst 0 y; do s <- getPixel src 0 y; do n <- chk (width dst * c); cells n d 2 s 4 halfBytes m) m.
Definition convertFloat4ToHalf4 (dst src : image) (m : mem) : option mem :=
  if hasFormat dst fHalf4 8 && hasFormat src fFloat4 16 && sameDims dst src then convertRows dst src 4 m else None.
Definition convertFloat2ToHalf2 (dst src : image) (m : mem) : option mem :=
  if hasFormat dst fHalf2 4 && hasFormat src fFloat2 8 && sameDims dst src then convertRows dst src 2 m else None.
(** Image.h:42-47 [toRGBA], [toABGR] (little endian). *)
Definition toRGBA (x y z w : Z) : Z := valueOf [x; y; z; w].
Definition toABGR (x y z w : Z) : Z := u32 (Z.lor (Z.lor (Z.lor w (Z.shiftl z 8)) (Z.shiftl y 16)) (Z.shiftl x 16)).
