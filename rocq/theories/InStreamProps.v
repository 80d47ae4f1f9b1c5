(* C24, C55: input streams. *)
From Coq Require Import List ZArith Lia. Import ListNotations. Open Scope Z_scope.
From Verif Require Import Base InStreamModel InStreamSpec InStreamProofs.

(** C24: whatever chunks the pipe delivers, any sequence of calls within the contract is answered from the bytes of the
    source in order, with nothing lost, repeated or invented, and rewinding to any saved position gives the same bytes
    again. Partial: a contiguous request of more than one byte is covered only if it does not cross a multiple of the block
    size (see the refuted statements below). *)
Theorem C24_stream_partial : forall (cut : nat -> nat) (blk : Z) (source : list Z) (os : list op),
  100 < blk < 2 ^ 32 -> zlen source < 2 ^ 63 -> right blk source start os (uses cut blk source os).
Proof. intros cut blk source os H1 H2. exact (uses_right cut blk source H1 H2 os). Qed.
Print Assumptions C24_stream_partial.

Definition src110 : list Z := map Z.of_nat (seq 0 110).
Example C24_stream_ex :
  uses (fun n => (7 * n + 3)%nat) 101 src110
    [Skip 99; Save; Byte; Read [0; 0; 0; 0]; Take 1 (fun _ => 1%nat); SeekPos; Rewind 0; Read [0; 0; 0]; Drop 0; Skip 7; Byte; AtEOF; Read [5; 5; 5]; AtEOF; Byte]
  = Some [Flag true; Nothing; Num 99; Bytes [100; 101; 102; 103] true; Chunk 1 [104; 105; 106; 107; 108; 109] 1; Num 105; Nothing;
          Bytes [99; 100; 101] true; Nothing; Flag true; Num 109; Flag false; Bytes [0; 0; 0] false; Flag true; Num 0].
Proof. vm_compute. reflexivity. Qed.
Example C24_take_ex :
  uses (fun n => (7 * n + 3)%nat) 101 src110 [Skip 97; Take 4 (fun _ => 4%nat); Take 9 (fun _ => 2%nat); Byte]
  = Some [Flag true; Chunk 4 [97; 98; 99; 100] 4; Chunk 9 [101; 102; 103; 104; 105; 106; 107; 108; 109] 2; Num 103].
Proof. vm_compute. reflexivity. Qed.
Example C24_rest_ex :
  uses (fun n => (7 * n + 3)%nat) 101 src110 [Skip 98; Rest]
  = Some [Flag true; Bytes [98; 99; 100; 101; 102; 103; 104; 105; 106; 107; 108; 109] true].
Proof. vm_compute. reflexivity. Qed.

(** A request that crosses the end of a block loses bytes, whatever the sizes: when the pipe fills whole blocks, a request of [n]
    bytes at [p], where [p + n] is past the end of the first block, gives bytes that start at the second block; those
    from [p] to the end of the first block are lost. *)
Theorem C24_request_refuted : forall (blk : Z) (source : list Z) (p n : Z),
  100 < blk < 2 ^ 32 -> 0 < p < blk -> blk < p + n -> n <= blk -> blk <= zlen source ->
  let v := firstn (Z.to_nat blk) (skipn (Z.to_nat blk) source) in
  uses (fun _ => Z.to_nat blk) blk source [Skip p; Take n (fun _ => 0%nat)] = Some [Flag true; Chunk (zlen v) v 0].
Proof. exact cross_loses. Qed.
Print Assumptions C24_request_refuted.
Example C24_request_refuted_ex :
  uses (fun _ => 101%nat) 101 src110 [Skip 100; Take 4 (fun _ => 0%nat)] = Some [Flag true; Chunk 9 [101; 102; 103; 104; 105; 106; 107; 108; 109] 0].
Proof. vm_compute. reflexivity. Qed.

(** After a rewind, a request that reaches into the next block fails although all its bytes have been read already. *)
Theorem C24_request_rewound_refuted : exists cut blk source,
  100 < blk < 2 ^ 32 /\ zlen source < 2 ^ 63 /\
  uses cut blk source [Skip 99; Save; Skip 5; Rewind 0; Take 4 (fun _ => 0%nat)] = None.
Proof. exists (fun _ => 1000%nat), 101, src110. vm_compute. repeat split; reflexivity. Qed.
Print Assumptions C24_request_rewound_refuted.

(** readString dereferences null on a stream that reads from a pipe. *)
Theorem C24_readString_refuted : exists cut blk source s,
  100 < blk < 2 ^ 32 /\ open blk source = Some s /\ readString cut blk s 1 = None.
Proof. exists (fun _ => 1000%nat), 101, src110. eexists. split; [lia|]. split; [reflexivity|]. vm_compute. reflexivity. Qed.
Print Assumptions C24_readString_refuted.

(** A request longer than what is left marks the stream as ended, so that a read of the bytes that are left reports failure. *)
Theorem C24_short_request_refuted : exists cut blk source,
  uses cut blk source [Skip 108; Take 4 (fun _ => 0%nat); Read [7; 7]] = Some [Flag true; Chunk 2 [108; 109] 0; Bytes [108; 109] false]
  /\ skipn 108 source = [108; 109].
Proof. exists (fun _ => 1000%nat), 4096, src110. vm_compute. split; reflexivity. Qed.
Print Assumptions C24_short_request_refuted.

(** A read after the end leaves the destination as it was: it is not filled with zeros. *)
Theorem C24_zero_fill_refuted : exists cut blk source,
  uses cut blk source [Skip 108; Read [7; 7; 7]; Read [9]] = Some [Flag true; Bytes [108; 109; 0] false; Bytes [9] false].
Proof. exists (fun _ => 1000%nat), 4096, src110. vm_compute. reflexivity. Qed.
Print Assumptions C24_zero_fill_refuted.

(** C55: a stream on a view answers every call as its specification says, whatever the size of the request. *)
Theorem C55_view_stream : forall (data : list Z) (os : list vop) (ys : list out),
  zlen data < 2 ^ 32 -> vanswers data 0 false [] os = Some ys -> usesView data os = Some ys.
Proof. intros data os ys H. exact (usesView_ok data H os ys). Qed.
Print Assumptions C55_view_stream.
Example C55_view_stream_ex :
  vanswers [10; 11; 12; 13; 14] 0 false [] [VByte; VSave; VTake 3 (fun _ => 2%nat); VSince 0; VTake 9 (fun _ => 0%nat); VRead [7; 7; 7]; VAtEOF; VRestore 0; VSeekPos; VSkip 1; VByte]
  = Some [Num 10; Nothing; Chunk 3 [11; 12; 13; 14] 2; Bytes [11; 12] true; Chunk 2 [13; 14] 0; Bytes [13; 14; 0] false; Flag true; Nothing; Num 1; Flag false; Num 12].
Proof. vm_compute. reflexivity. Qed.

(** Restoring a save point does not clear the end-of-file flag, so the bytes read again come with a failure report. *)
Theorem C55_restore_refuted : exists data,
  usesView data [VSave; VRead [0; 0; 0]; VRestore 0; VRead [0; 0]] = Some [Nothing; Bytes [10; 11; 0] false; Nothing; Bytes [10; 11] false] /\ data = [10; 11].
Proof. exists [10; 11]. vm_compute. split; reflexivity. Qed.
Print Assumptions C55_restore_refuted.
