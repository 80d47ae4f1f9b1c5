(* What mixing means, said about memories as sequences of samples. *)
From Verif Require Import Base AudioModel.

(* The nearest value a signed 16-bit sample can have. *)
Definition clamp16 (z : Z) : Z := Z.max (-32768) (Z.min 32767 z).

Definition is_s16 (z : Z) : Prop := -32768 <= z <= 32767.

(* Every cell of a memory is a 16-bit sample. *)
Definition sound (m : mem) : Prop := Forall is_s16 m.

Definition cell (m : mem) (i : nat) : Z := nth i m 0.

(* [m'] is [m] where each of the [n] samples from [d] on has had [g i] added
   to it, the sum being clamped; nothing else has changed. *)
Definition added (m : mem) (d n : nat) (g : nat -> Z) (m' : mem) : Prop :=
  List.length m' = List.length m /\
  (forall i, (i < n)%nat -> cell m' (d + i) = clamp16 (cell m (d + i) + g i)) /\
  (forall j, ((j < d)%nat \/ (d + n <= j)%nat) -> cell m' j = cell m j).

(* The buffer [b] is the [n] samples of [m] from the [i]-th cell on: it holds
   whole frames of 16-bit samples and lies inside the memory. *)
Definition buffer_at (m : mem) (b : Buffer) (i n : nat) : Prop :=
  samples b = 2 * Z.of_nat i /\
  (i + n <= List.length m)%nat /\
  Z.of_nat n < 2147483648 /\
  sampleType (format b) = S16 /\
  0 < numChannels (format b) <= 255 /\
  stride (format b) = 2 * numChannels (format b) /\
  Z.of_nat n = numSamples b * numChannels (format b).

(* Both buffers have the same shape. *)
Definition alike (a b : Buffer) : Prop :=
  numSamples a = numSamples b /\ sampleRate a = sampleRate b /\ format a = format b.

(* Reading [n] samples from [s] on while writing those from [d] on never reads
   what has been written: the source does not begin inside the destination's
   past. *)
Definition readable (s d n : nat) : Prop := (d <= s)%nat \/ (s + n <= d)%nat.

(* The value read at the position [p] (in 65536ths of a frame) of the channel
   whose first sample is the cell [s]. *)
Definition readAt (m : mem) (s : nat) (p : Z) : Z :=
  let q := Z.to_nat (p / 65536) in
  let r := p mod 65536 in
  (cell m (s + 2 * q) * (65536 - r) + cell m (s + 2 * (q + 1)) * r) / 65536.

(* What the [i]-th sample of the destination gets. *)
Definition pitchedAt (m : mem) (s : nat) (sf step v : Z) (i : nat) : Z :=
  readAt m (s + i mod 2) (sf + Z.of_nat (i / 2) * step) * v / 65536.
