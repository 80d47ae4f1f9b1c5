(* The audio primitives: saturating addition, formats, buffers and the four
   mixing functions.

   Source: repos/plywood/src/audio/primitives/audio-primitives, at the pinned
   commit.

   Memory is a list of 16-bit cells holding signed values; an address counts
   bytes, so the cell at address 2*k is the k-th one.  Reading or writing at
   an odd address or outside the list is undefined behaviour, and the result
   is then None; so is a false PLY_ASSERT and an overflowing signed product.
   A sample rate is an opaque number: the functions only compare it.
   A conversion to s16 keeps the low sixteen bits, as on every compiler the
   project supports. *)
From Verif Require Import Base.

(* Conversion to s16: the low sixteen bits read in two's complement. *)
Definition toS16 (z : Z) : Z := (z + 32768) mod 65536 - 32768.
(* Conversion to u32. *)
Definition toU32 (z : Z) : Z := z mod 4294967296.
(* Conversion to s32. *)
Definition toS32 (z : Z) : Z := (z + 2147483648) mod 4294967296 - 2147483648.

(* The value of a signed 32-bit operation; overflow is undefined. *)
Definition s32op (z : Z) : option Z :=
  if (-2147483648 <=? z) && (z <=? 2147483647) then Some z else None.

(* Saturate.h:21-24, the portable version. *)
Definition saturatingAdd (a b : Z) : Z :=
  let sum := a + b in
  toS16 (if 32768 <=? sum then 32767 else if sum <? -32768 then -32768 else sum).

(* Format.h:15-20 *)
Inductive SampleType := S16 | Float.

Definition sameType (a b : SampleType) : bool :=
  match a, b with S16, S16 => true | Float, Float => true | _, _ => false end.

(* Format.h:23-27 *)
Record Format := mkFormat { numChannels : Z; sampleType : SampleType; stride : Z }.

(* Format.h:30-32: the four bytes are compared at once. *)
Definition formatEq (a b : Format) : bool :=
  (numChannels a =? numChannels b) && sameType (sampleType a) (sampleType b)
  && (stride a =? stride b).

(* Format.cpp:15-16 *)
Definition sampleTypeToStride (t : SampleType) : Z :=
  match t with S16 => 2 | Float => 4 end.

(* Format.h:34-38: u16 of the product. *)
Definition encode (channels : Z) (t : SampleType) : Format :=
  mkFormat channels t ((sampleTypeToStride t * channels) mod 65536).

(* Format.h:44-47 *)
Definition onPostSerialize (f : Format) : Format :=
  mkFormat (numChannels f) (sampleType f)
           ((sampleTypeToStride (sampleType f) * numChannels f) mod 65536).

(* Format.cpp:12-13 *)
Definition MonoS16 : Format := mkFormat 1 S16 2.
Definition StereoS16 : Format := mkFormat 2 S16 4.

(* Buffer.h:22-34 *)
Record Buffer := mkBuffer
  { samples : Z; numSamples : Z; sampleRate : Z; format : Format }.

(* Buffer.h:37-39: a u32 product. *)
Definition getSizeBytes (b : Buffer) : Z := toU32 (numSamples b * stride (format b)).

(* Buffer.h:42-44 *)
Definition getSampleAt (b : Buffer) (samplePos : Z) : Z :=
  samples b + toU32 (samplePos * stride (format b)).

(* Buffer.h:47-49 *)
Definition getEndPtr (b : Buffer) : Z := samples b + getSizeBytes b.

(* Buffer.h:53-61: offset is a u32, length an s32. *)
Definition getSubregion (b : Buffer) (offset length : Z) : option Buffer :=
  if offset <=? numSamples b then
    let start := samples b + toU32 (offset * stride (format b)) in
    if length <? 0
    then Some (mkBuffer start (numSamples b - offset) (sampleRate b) (format b))
    else if toU32 (offset + length) <=? numSamples b
         then Some (mkBuffer start length (sampleRate b) (format b))
         else None
  else None.

Definition mem := list Z.

(* Reading a 16-bit cell. *)
Definition load (m : mem) (a : Z) : option Z :=
  if (0 <=? a) && Z.even a then nth_error m (Z.to_nat (a / 2)) else None.

Fixpoint put (m : mem) (i : nat) (v : Z) : option mem :=
  match m, i with
  | [], _ => None
  | _ :: m', O => Some (v :: m')
  | x :: m', S i' => option_map (cons x) (put m' i' v)
  end.

(* Writing a 16-bit cell. *)
Definition store (m : mem) (a v : Z) : option mem :=
  if (0 <=? a) && Z.even a then put m (Z.to_nat (a / 2)) v else None.

Notation "'do' x <- e ; f" := (match e with Some x => f | None => None end)
  (at level 200, x name, e at level 100, f at level 200).

(* Buffer.h:64-66: memset over whole cells; [fuel] bounds the loop. *)
Fixpoint zeroLoop (fuel : nat) (m : mem) (p pEnd : Z) : option mem :=
  match fuel with
  | O => None
  | S n => if p <? pEnd then do m1 <- store m p 0; zeroLoop n m1 (p + 2) pEnd
           else Some m
  end.

Definition zero (m : mem) (b : Buffer) : option mem :=
  zeroLoop (S (length m)) m (samples b) (getEndPtr b).

(* Render.cpp:21-25.  Every pass writes another cell, so as many passes as
   there are cells, and one for the last test, are enough. *)
Fixpoint mixLoop (fuel : nat) (m : mem) (dst dstEnd src : Z) : option mem :=
  match fuel with
  | O => None
  | S n =>
    if dst <? dstEnd then
      do x <- load m dst;
      do y <- load m src;
      do m1 <- store m dst (saturatingAdd x y);
      mixLoop n m1 (dst + 2) dstEnd (src + 2)
    else Some m
  end.

(* Render.cpp:13-16 *)
Definition mixAsserts (d s : Buffer) : bool :=
  (numSamples d =? numSamples s) && (sampleRate d =? sampleRate s)
  && formatEq (format d) (format s) && sameType (sampleType (format d)) S16.

(* Render.cpp:12-26 *)
Definition mix (m : mem) (d s : Buffer) : option mem :=
  if mixAsserts d s
  then mixLoop (S (length m)) m (samples d) (getEndPtr d) (samples s)
  else None.

(* Render.cpp:38: the second argument, [( *src * level16) >> 16]. *)
Definition leveled (y level16 : Z) : option Z :=
  do p <- s32op (y * level16); Some (toS16 (p / 65536)).

(* Render.cpp:37-41 *)
Fixpoint leveledLoop (fuel : nat) (m : mem) (dst dstEnd src level16 : Z) : option mem :=
  match fuel with
  | O => None
  | S n =>
    if dst <? dstEnd then
      do x <- load m dst;
      do y <- load m src;
      do l <- leveled y level16;
      do m1 <- store m dst (saturatingAdd x l);
      leveledLoop n m1 (dst + 2) dstEnd (src + 2) level16
    else Some m
  end.

(* Render.cpp:28-42 *)
Definition mixLeveled (m : mem) (d s : Buffer) (level16 : Z) : option mem :=
  if mixAsserts d s
  then leveledLoop (S (length m)) m (samples d) (getEndPtr d) (samples s) level16
  else None.

(* Render.cpp:54: [*src] is multiplied by a u32, so the product is a u32 and
   the shift is a logical one. *)
Definition dynLeveled (y level30 : Z) : Z :=
  toS16 (toU32 (y * (level30 / 16384)) / 65536).

(* One of the two statements of Render.cpp:54-59. *)
Definition dynStep (m : mem) (dst src level30 : Z) : option mem :=
  do x <- load m dst;
  do y <- load m src;
  store m dst (saturatingAdd x (dynLeveled y level30)).

(* Render.cpp:53-61 *)
Fixpoint dynLoop (fuel : nat) (m : mem) (dst dstEnd src level30 stepLevel30 : Z)
  : option mem :=
  match fuel with
  | O => None
  | S n =>
    if dst <? dstEnd then
      do m1 <- dynStep m dst src level30;
      do m2 <- dynStep m1 (dst + 2) (src + 2) level30;
      dynLoop n m2 (dst + 4) dstEnd (src + 4) (toU32 (level30 + stepLevel30)) stepLevel30
    else Some m
  end.

(* Render.cpp:44-62 *)
Definition mixDynLevel (m : mem) (d s : Buffer) (level30 stepLevel30 : Z) : option mem :=
  if (numSamples d =? numSamples s) && (sampleRate d =? sampleRate s)
     && formatEq (format d) (format s) && formatEq (format d) StereoS16
  then dynLoop (S (length m)) m (samples d) (getEndPtr d) (samples s) level30 stepLevel30
  else None.

(* Render.cpp:80 and 82: the value between two samples. *)
Definition lerp16 (y0 y1 sf16 : Z) : option Z :=
  do w <- s32op (65536 - sf16);
  do p0 <- s32op (y0 * w);
  do p1 <- s32op (y1 * sf16);
  do p <- s32op (p0 + p1);
  Some (p / 65536).

(* Render.cpp:80-83: one of the two channels. *)
Definition pitchedStep (m : mem) (dst src sf16 volume16 : Z) : option mem :=
  do y0 <- load m src;
  do y1 <- load m (src + 4);
  do v <- lerp16 y0 y1 sf16;
  do x <- load m dst;
  do l <- leveled v volume16;
  store m dst (saturatingAdd x l).

(* Render.cpp:78-88: the memory, src and sf16 after the loop.  Forming an
   address is taken to be harmless; reading from it is not. *)
Fixpoint pitchedLoop (fuel : nat) (m : mem) (dst dstEnd src srcEnd sf16 sampleStep volume16 : Z)
  : option (mem * (Z * Z)) :=
  match fuel with
  | O => None
  | S n =>
    if dst <? dstEnd then
      if src + 4 <? srcEnd then
        do m1 <- pitchedStep m dst src sf16 volume16;
        do m2 <- pitchedStep m1 (dst + 2) (src + 2) sf16 volume16;
        let sf1 := toS32 (sf16 + sampleStep) in
        pitchedLoop n m2 (dst + 4) dstEnd (src + 4 * (sf1 / 65536)) srcEnd
                    (sf1 mod 65536) sampleStep volume16
      else None
    else Some (m, (src, sf16))
  end.

(* Render.cpp:64-94; the parameters are those of Render.h:12-20. *)
Definition mixPitchedDirect (m : mem) (dst dstEnd src srcEnd sf16 srcStep volume16 : Z)
  : option mem :=
  do r <- pitchedLoop (S (length m)) m dst dstEnd src srcEnd (toS32 sf16) srcStep volume16;
  let '(m', (src', sf')) := r in
  if (src' + 4 * (toS32 (sf' - srcStep) / 65536) <? srcEnd - 4)
     && (src' <=? srcEnd + 4 * (srcStep / 65536))
  then Some m' else None.
