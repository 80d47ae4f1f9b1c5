(* Model of the integer utilities: SRC/platform/ply-platform/Util.h and Core.h
   (SRC = /repo/repos/plywood/src). Unsigned values are integers in [0, 2^w). *)
From Verif Require Export Base.

(** Util.h:23-26 [isPowerOf2], at an unsigned type of width [w]: [(v & (v - 1)) == 0]. *)
Definition isPowerOf2 (w v : Z) : bool := Z.land v ((v - 1) mod 2 ^ w) =? 0.

(** Util.h:28-33 [alignPowerOf2], both operands at width [w]; [None] is the failed assertion. *)
Definition alignPowerOf2 (w v a : Z) : option Z :=
  if isPowerOf2 w a then
    Some (Z.land ((v + a - 1) mod 2 ^ w) (Z.lxor ((a - 1) mod 2 ^ w) (2 ^ w - 1)))
  else None.

(** Util.h:35-40 [isAlignedPowerOf2]. *)
Definition isAlignedPowerOf2 (w v a : Z) : option bool :=
  if isPowerOf2 w a then Some (Z.land v ((a - 1) mod 2 ^ w) =? 0) else None.

(** One statement [v |= v >> k]. *)
Definition smear (k v : Z) : Z := Z.lor v (Z.shiftr v k).

(** Util.h:42-53 [roundUpPowerOf2], 64-bit. *)
Definition roundUpPowerOf2_64 (v : Z) : Z :=
  let v := (v - 1) mod 2 ^ 64 in
  let v := smear 32 (smear 16 (smear 8 (smear 4 (smear 2 (smear 1 v))))) in
  (v + 1) mod 2 ^ 64.

(** Util.h:55-65 [roundUpPowerOf2], at most 32-bit, for [I = u32]. *)
Definition roundUpPowerOf2_32 (v : Z) : Z :=
  let v := (v - 1) mod 2 ^ 32 in
  let v := smear 16 (smear 8 (smear 4 (smear 2 (smear 1 v)))) in
  (v + 1) mod 2 ^ 32.

(** Util.h:67-75 [countSetBits]. [mask >>= 1] is arithmetic on a signed type, which is what
    [Z.shiftr] is on a negative integer. [None]: the loop has not ended after [fuel] rounds. *)
Fixpoint countSetBits (fuel : nat) (mask count : Z) : option Z :=
  if mask =? 0 then Some count
  else match fuel with
       | O => None
       | S f => countSetBits f (Z.shiftr mask 1) (u32 (count + Z.land mask 1))
       end.

(** Util.h:77-100 [safeDemote] between integer types given by their ranges: [None] is the failed
    assertion. The three overloads all test that the source lies in the destination's range. *)
Definition safeDemote (dmin dmax src : Z) : option Z :=
  if (dmin <=? src) && (src <=? dmax) then Some src else None.

(** Util.h:104-111 [avalanche(u32)]. *)
Definition xorshr (k h : Z) : Z := Z.lxor h (Z.shiftr h k).
Definition avalanche32 (h : Z) : Z :=
  let h := xorshr 16 h in
  let h := u32 (h * 0x85ebca6b) in
  let h := xorshr 13 h in
  let h := u32 (h * 0xc2b2ae35) in
  xorshr 16 h.

(** Util.h:113-120 [deavalanche(u32)]. *)
Definition deavalanche32 (h : Z) : Z :=
  let h := xorshr 16 h in
  let h := u32 (h * 0x7ed1b41d) in
  let h := Z.lxor h (Z.shiftr (Z.lxor h (Z.shiftr h 13)) 13) in
  let h := u32 (h * 0xa5cb9243) in
  xorshr 16 h.

(** Util.h:123-130 [avalanche(u64)]. *)
Definition avalanche64 (h : Z) : Z :=
  let h := xorshr 33 h in
  let h := u64 (h * 0xff51afd7ed558ccd) in
  let h := xorshr 33 h in
  let h := u64 (h * 0xc4ceb9fe1a85ec53) in
  xorshr 33 h.

(** Util.h:132-139 [deavalanche(u64)]. *)
Definition deavalanche64 (h : Z) : Z :=
  let h := xorshr 33 h in
  let h := u64 (h * 0x9cb4b2f8129337db) in
  let h := xorshr 33 h in
  let h := u64 (h * 0x4f74430c22a54005) in
  xorshr 33 h.

(** Core.h:151-153 [reverseBytes(u32)]. *)
Definition reverseBytes32 (v : Z) : Z :=
  Z.lor (Z.lor (Z.lor (Z.land (Z.shiftr v 24) 0xff) (Z.land (Z.shiftr v 8) 0xff00))
               (Z.land (u32 (Z.shiftl v 8)) 0xff0000)) (Z.land (u32 (Z.shiftl v 24)) 0xff000000).

(** Core.h:154-156 [reverseBytes(u16)]. *)
Definition reverseBytes16 (v : Z) : Z :=
  Z.lor (Z.land (Z.shiftr v 8) 0xff) (Z.land (Z.shiftl v 8) 0xff00).

(** Core.h:82-85 [min], [max], [clamp] at an integer type. *)
Definition ply_min (a b : Z) : Z := if a <? b then a else b.
Definition ply_max (a b : Z) : Z := if a <? b then b else a.
Definition ply_clamp (arg lo hi : Z) : Z := if arg <? lo then lo else if arg <? hi then arg else hi.
