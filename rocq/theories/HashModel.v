(* Model of ply-runtime/container/Hash.h, Hash.cpp, Hash128.h, Hash128.cpp and Int128.h. Bytes are Z in [0, 256); None is
   an access outside of a buffer. As the code does, this assumes a little endian machine that allows unaligned reads. *)
From Verif Require Export Base UtilModel.
Local Notation "'do' p <- m ; k" := (match m with Some p => k | None => None end) (at level 200, p pattern, m at level 100, k at level 200).

(* ---- memory ---- *)
(** The number with these bytes, least significant first. *)
Fixpoint le (l : list Z) : Z := match l with [] => 0 | b :: l => b + 256 * le l end.
(** *(T* )(p + off), where T has [n] bytes. *)
Definition rd (n : nat) (m : list Z) (off : nat) : option Z :=
  if (off + n <=? length m)%nat then Some (le (firstn n (skipn off m))) else None.
(** memcpy to [m + off]. *)
Definition put (m : list Z) (off : nat) (l : list Z) : option (list Z) :=
  if (off + length l <=? length m)%nat then Some (firstn off m ++ l ++ skipn (off + length l) m) else None.

(* ---- Hasher ---- *)
(** Hash.h:17-25 [finalize]. *)
Definition finalize (h : Z) : Z :=
  let h := xorshr 16 h in
  let h := u32 (h * 0x85ebca6b) in
  let h := xorshr 13 h in
  let h := u32 (h * 0xc2b2ae35) in
  xorshr 16 h.
(** (x << k) | (x >> (w - k)) for x of w bits. *)
Definition rotl (w x k : Z) : Z := Z.lor (Z.shiftl x k mod 2 ^ w) (Z.shiftr x (w - k)).
(** Hash.cpp:14-22. *)
Definition feed (accum value : Z) : Z :=
  let value := u32 (value * 0xcc9e2d51) in
  let value := rotl 32 value 15 in
  let value := u32 (value * 0x1b873593) in
  let accum := Z.lxor accum value in
  let accum := rotl 32 accum 13 in
  u32 (accum * 5 + 0xe6546b64).
(** Hash.h:68-72, 64-bit integers and pointers. *)
Definition feed64 (accum value : Z) : Z := feed (feed accum (u32 value)) (u32 (Z.shiftr value 32)).
(** Hash.h:56-66, a float given by its 32 bits: both zeros are fed as 0. *)
Definition isZero (bits : Z) : bool := (bits =? 0) || (bits =? 0x80000000).
Definition feedFloat (accum bits : Z) : Z := feed accum (if isZero bits then 0 else bits).
(** Hash.cpp:24-44. *)
Fixpoint tailWord (v : Z) (l : list Z) : Z := match l with [] => v | b :: l => tailWord (Z.lor (u32 (Z.shiftl v 8)) b) l end.
Fixpoint feedBytes (accum : Z) (l : list Z) : Z :=
  match l with
  | a :: b :: c :: d :: l => feedBytes (feed accum (le [a; b; c; d])) l
  | [] => accum
  | _ => feed accum (tailWord 0 l)
  end.
(** A key made of parts, in the order in which they are given to the hasher (Hash.h:29-34). *)
Inductive part := PInt (x : Z) | PInt64 (x : Z) | PFloat (bits : Z) | PBytes (l : list Z).
Definition feedPart (accum : Z) (p : part) : Z :=
  match p with PInt x => feed accum x | PInt64 x => feed64 accum x | PFloat b => feedFloat accum b | PBytes l => feedBytes accum l end.
Definition hashOf (ps : list part) : Z := finalize (fold_left feedPart ps 0).
(** Hash.h:36-48: integers. *)
Definition hash32 (x : Z) : Z := avalanche32 x.
Definition hash64 (x : Z) : Z := u32 (avalanche64 x).

(* ---- SpookyHash ---- *)
(** The statements of the mixing functions: s[i] += data[i], s[i] += s[j], s[i] ^= s[j], s[i] = Rot64(s[i], k). *)
Inductive op := Data (i : nat) | Add (i j : nat) | Xor (i j : nat) | Rot (i : nat) (k : Z).
Definition at_ (s : list Z) (i : nat) : Z := nth i s 0.
Fixpoint set (s : list Z) (i : nat) (x : Z) : list Z :=
  match s, i with [] , _ => [] | _ :: s, O => x :: s | y :: s, S i => y :: set s i x end.
Definition step (data s : list Z) (o : op) : list Z :=
  match o with
  | Data i => set s i (u64 (at_ s i + at_ data i))
  | Add i j => set s i (u64 (at_ s i + at_ s j))
  | Xor i j => set s i (Z.lxor (at_ s i) (at_ s j))
  | Rot i k => set s i (rotl 64 (at_ s i) k)
  end.
Definition run (data : list Z) (ops : list op) (s : list Z) : list Z := fold_left (step data) ops s.

(** Hash128.h:126-143 [Mix]. *)
Definition mixOps : list op := [
  Data 0; Xor 2 10; Xor 11 0; Rot 0 11; Add 11 1;
  Data 1; Xor 3 11; Xor 0 1; Rot 1 32; Add 0 2;
  Data 2; Xor 4 0; Xor 1 2; Rot 2 43; Add 1 3;
  Data 3; Xor 5 1; Xor 2 3; Rot 3 31; Add 2 4;
  Data 4; Xor 6 2; Xor 3 4; Rot 4 17; Add 3 5;
  Data 5; Xor 7 3; Xor 4 5; Rot 5 28; Add 4 6;
  Data 6; Xor 8 4; Xor 5 6; Rot 6 39; Add 5 7;
  Data 7; Xor 9 5; Xor 6 7; Rot 7 57; Add 6 8;
  Data 8; Xor 10 6; Xor 7 8; Rot 8 55; Add 7 9;
  Data 9; Xor 11 7; Xor 8 9; Rot 9 54; Add 8 10;
  Data 10; Xor 0 8; Xor 9 10; Rot 10 22; Add 9 11;
  Data 11; Xor 1 9; Xor 10 11; Rot 11 46; Add 10 0].
(** Hash128.h:160-177 [EndPartial]. *)
Definition endOps : list op := [
  Add 11 1; Xor 2 11; Rot 1 44;
  Add 0 2; Xor 3 0; Rot 2 15;
  Add 1 3; Xor 4 1; Rot 3 34;
  Add 2 4; Xor 5 2; Rot 4 21;
  Add 3 5; Xor 6 3; Rot 5 38;
  Add 4 6; Xor 7 4; Rot 6 33;
  Add 5 7; Xor 8 5; Rot 7 10;
  Add 6 8; Xor 9 6; Rot 8 13;
  Add 7 9; Xor 10 7; Rot 9 38;
  Add 8 10; Xor 11 8; Rot 10 53;
  Add 9 11; Xor 0 9; Rot 11 42;
  Add 10 0; Xor 1 10; Rot 0 54].
(** Hash128.h:204-219 [ShortMix]. *)
Definition shortMixOps : list op := [
  Rot 2 50; Add 2 3; Xor 0 2;
  Rot 3 52; Add 3 0; Xor 1 3;
  Rot 0 30; Add 0 1; Xor 2 0;
  Rot 1 41; Add 1 2; Xor 3 1;
  Rot 2 54; Add 2 3; Xor 0 2;
  Rot 3 48; Add 3 0; Xor 1 3;
  Rot 0 38; Add 0 1; Xor 2 0;
  Rot 1 37; Add 1 2; Xor 3 1;
  Rot 2 62; Add 2 3; Xor 0 2;
  Rot 3 34; Add 3 0; Xor 1 3;
  Rot 0 5; Add 0 1; Xor 2 0;
  Rot 1 36; Add 1 2; Xor 3 1].
(** Hash128.h:233-247 [ShortEnd]. *)
Definition shortEndOps : list op := [
  Xor 3 2; Rot 2 15; Add 3 2;
  Xor 0 3; Rot 3 52; Add 0 3;
  Xor 1 0; Rot 0 26; Add 1 0;
  Xor 2 1; Rot 1 51; Add 2 1;
  Xor 3 2; Rot 2 28; Add 3 2;
  Xor 0 3; Rot 3 9; Add 0 3;
  Xor 1 0; Rot 0 47; Add 1 0;
  Xor 2 1; Rot 1 54; Add 2 1;
  Xor 3 2; Rot 2 32; Add 3 2;
  Xor 0 3; Rot 3 25; Add 0 3;
  Xor 1 0; Rot 0 63; Add 1 0].

(** Hash128.h:260-278. *)
Definition numVars : nat := 12.
Definition blockSize : nat := 96.
Definition bufSize : nat := 192.
Definition scConst : Z := 0xdeadbeefdeadbeef.

(** The twelve words at [off]. *)
Fixpoint words (n : nat) (m : list Z) (off : nat) : option (list Z) :=
  match n with
  | O => Some []
  | S n => do w <- rd 8 m off; do ws <- words n m (off + 8); Some (w :: ws)
  end.
Definition mixAt (m : list Z) (off : nat) (s : list Z) : option (list Z) :=
  do d <- words numVars m off; Some (run d mixOps s).
(** Mix, [k] blocks from [off]. *)
Fixpoint mixBlocks (k : nat) (m : list Z) (off : nat) (s : list Z) : option (list Z) :=
  match k with O => Some s | S k => do s <- mixAt m off s; mixBlocks k m (off + blockSize) s end.
(** Hash128.h:179-190 [End]: the two words of the result. *)
Definition end_ (m : list Z) (off : nat) (s : list Z) : option (Z * Z) :=
  do d <- words numVars m off;
  let s := run d (map Data (seq 0 numVars)) s in
  let s := run [] endOps (run [] endOps (run [] endOps s)) in
  Some (at_ s 0, at_ s 1).

(** Hash128.cpp:56-62: sets of 32 bytes. [s] is a, b, c, d. *)
Fixpoint shortLoop (k : nat) (m : list Z) (off : nat) (s : list Z) : option (list Z) :=
  match k with
  | O => Some s
  | S k =>
    do w <- words 4 m off;
    let s := set s 2 (u64 (at_ s 2 + at_ w 0)) in
    let s := set s 3 (u64 (at_ s 3 + at_ w 1)) in
    let s := run [] shortMixOps s in
    let s := set s 0 (u64 (at_ s 0 + at_ w 2)) in
    let s := set s 1 (u64 (at_ s 1 + at_ w 3)) in
    shortLoop k m (off + 32) s
  end.
(** x += T(p[off]) << shift. *)
Definition plusAt (n : nat) (m : list Z) (off : nat) (shift : Z) (s : list Z) (i : nat) : option (list Z) :=
  do v <- rd n m off; Some (set s i (u64 (at_ s i + u64 (Z.shiftl v shift)))).
Definition when (b : bool) (x : option (list Z)) (s : list Z) : option (list Z) := if b then x else Some s.
(** Hash128.cpp:75-112: the switch, whose cases fall through. *)
Definition shortTail (r : nat) (m : list Z) (p : nat) (s : list Z) : option (list Z) :=
  if (12 <=? r)%nat then
    do s <- when (15 <=? r)%nat (plusAt 1 m (p + 14) 48 s 3) s;
    do s <- when (14 <=? r)%nat (plusAt 1 m (p + 13) 40 s 3) s;
    do s <- when (13 <=? r)%nat (plusAt 1 m (p + 12) 32 s 3) s;
    do s <- plusAt 4 m (p + 8) 0 s 3;
    plusAt 8 m p 0 s 2
  else if (8 <=? r)%nat then
    do s <- when (11 <=? r)%nat (plusAt 1 m (p + 10) 16 s 3) s;
    do s <- when (10 <=? r)%nat (plusAt 1 m (p + 9) 8 s 3) s;
    do s <- when (9 <=? r)%nat (plusAt 1 m (p + 8) 0 s 3) s;
    plusAt 8 m p 0 s 2
  else if (4 <=? r)%nat then
    do s <- when (7 <=? r)%nat (plusAt 1 m (p + 6) 48 s 2) s;
    do s <- when (6 <=? r)%nat (plusAt 1 m (p + 5) 40 s 2) s;
    do s <- when (5 <=? r)%nat (plusAt 1 m (p + 4) 32 s 2) s;
    plusAt 4 m p 0 s 2
  else if (1 <=? r)%nat then
    do s <- when (3 <=? r)%nat (plusAt 1 m (p + 2) 16 s 2) s;
    do s <- when (2 <=? r)%nat (plusAt 1 m (p + 1) 8 s 2) s;
    plusAt 1 m p 0 s 2
  else Some (set (set s 2 (u64 (at_ s 2 + scConst))) 3 (u64 (at_ s 3 + scConst))).
(** Hash128.cpp:32-117 [Short], for [length] bytes at the start of [m]. *)
Definition short (m : list Z) (length : nat) (seed1 seed2 : Z) : option (Z * Z) :=
  let s := [seed1; seed2; scConst; scConst] in
  let remainder := (length mod 32)%nat in
  do (s, p, remainder) <-
    (if (15 <? length)%nat then
       do s <- shortLoop (length / 32) m 0 s;
       let p := (length / 32 * 32)%nat in
       if (16 <=? remainder)%nat then
         do w <- words 2 m p;
         let s := set s 2 (u64 (at_ s 2 + at_ w 0)) in
         let s := set s 3 (u64 (at_ s 3 + at_ w 1)) in
         Some (run [] shortMixOps s, (p + 16)%nat, (remainder - 16)%nat)
       else Some (s, p, remainder)
     else Some (s, 0%nat, remainder));
  let s := set s 3 (u64 (at_ s 3 + u64 (Z.shiftl (Z.of_nat length) 56))) in
  do s <- shortTail remainder m p s;
  let s := run [] shortEndOps s in
  Some (at_ s 0, at_ s 1).

(** Hash128.cpp:128-130. *)
Definition start (seed1 seed2 : Z) : list Z :=
  [seed1; seed2; scConst; seed1; seed2; scConst; seed1; seed2; scConst; seed1; seed2; scConst].
(** memset(p + off, 0, n). *)
Definition zeros (n : nat) : list Z := repeat 0 n.
(** Hash128.cpp:120-163 [Hash128], the message in one call. *)
Definition hash128 (message : list Z) (seed1 seed2 : Z) : option (Z * Z) :=
  let n := length message in
  if (n <? bufSize)%nat then short message n seed1 seed2 else
  do s <- mixBlocks (n / blockSize) message 0 (start seed1 seed2);
  let end__ := (n / blockSize * blockSize)%nat in
  let remainder := (n - end__)%nat in
  do buf <- put (zeros blockSize) 0 (skipn end__ message);
  do buf <- put buf remainder (zeros (blockSize - remainder));
  do buf <- put buf (blockSize - 1) [Z.of_nat remainder];
  end_ buf 0 s.

(** Hash128.h:280-283. *)
Record spooky := mks { sdata : list Z; sstate : list Z; slen : Z; srem : nat }.
(** Hash128.cpp:166-171 [Init]: nothing is written to the data and to the other ten words of the state. *)
Definition init (seed1 seed2 : Z) (data rest : list Z) : spooky := mks data (seed1 :: seed2 :: rest) 0 0.
(** Hash128.cpp:174-263 [Update]. The casts to u8 do nothing to numbers up to 192. *)
Definition update (h : spooky) (message : list Z) : option spooky :=
  let length_ := length message in
  let newLength := (length_ + srem h)%nat in
  if (newLength <? bufSize)%nat then
    do data <- put (sdata h) (srem h) message;
    Some (mks data (sstate h) (u64 (Z.of_nat length_ + slen h)) newLength)
  else
    let s := if slen h <? Z.of_nat bufSize then start (at_ (sstate h) 0) (at_ (sstate h) 1) else sstate h in
    let len := u64 (Z.of_nat length_ + slen h) in
    do (s, data, p) <-
      (if (srem h =? 0)%nat then Some (s, sdata h, 0%nat) else
       let prefix := (bufSize - srem h)%nat in
       if (length_ <? prefix)%nat then None else
       do data <- put (sdata h) (srem h) (firstn prefix message);
       do s <- mixAt data 0 s;
       do s <- mixAt data blockSize s;
       Some (s, data, prefix));
    let left := (length_ - p)%nat in
    let k := (left / blockSize)%nat in
    let remainder := (left - k * blockSize)%nat in
    do s <- mixBlocks k message p s;
    do data <- put data 0 (skipn (p + k * blockSize) message);
    Some (mks data s len remainder).
(** Hash128.cpp:266-312 [Final]: the two words of the hash, and the data, which it overwrites although it is const. *)
Definition final (h : spooky) : option (Z * Z * spooky) :=
  if slen h <? Z.of_nat bufSize then
    do r <- short (sdata h) (Z.to_nat (slen h)) (at_ (sstate h) 0) (at_ (sstate h) 1); Some (r, h)
  else
    do (s, p, remainder) <-
      (if (blockSize <=? srem h)%nat then do s <- mixAt (sdata h) 0 (sstate h); Some (s, blockSize, (srem h - blockSize)%nat)
       else Some (sstate h, 0%nat, srem h));
    do data <- put (sdata h) (p + remainder) (zeros (blockSize - remainder));
    do data <- put data (p + blockSize - 1) [Z.of_nat remainder];
    do r <- end_ data p s;
    Some (r, mks data (sstate h) (slen h) (srem h)).

(** Hash128.cpp:316-336 and Hash128.h:286-294: [append] and [get] in any order, and what every [get] returns, as the words
    hi and lo. *)
Inductive call := Append (l : list Z) | Get.
Fixpoint calls (h : spooky) (cs : list call) : option (list (Z * Z)) :=
  match cs with
  | [] => Some []
  | Append l :: cs => do h <- update h l; calls h cs
  | Get :: cs => do (r, h) <- final h; do rs <- calls h cs; Some (r :: rs)
  end.

(** Int128.h:29-33, numbers as (hi, lo). *)
Definition add128 (x y : Z * Z) : Z * Z :=
  let hi := u64 (fst x + fst y) in
  let lo := u64 (snd x + snd y) in
  (u64 (hi + (if lo <? snd y then 1 else 0)), lo).
