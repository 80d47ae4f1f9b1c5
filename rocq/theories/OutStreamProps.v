(* C22, C23 and C53: what is written to an output stream arrives. *)
From Verif Require Import OutStreamModel OutStreamSpec OutStreamProofs.

(** C22. The string a memory stream is moved to is the concatenation of the pieces written to it, however they were
    split and whichever calls they were written with. Every call succeeds, and the seek position is the number of bytes
    written before it. The pipe is of no influence. *)
Theorem C22_memory_stream : forall pipe flushPipe (blk : Z) os, 100 < blk -> forallb allowed os = true -> zlen (written os) < 2 ^ 32 ->
  usesMem pipe flushPipe blk os = Some (answers (fun _ => true) 0 0 os, written os).
Proof. exact mem_collects. Qed.
Print Assumptions C22_memory_stream.
Example C22_memory_stream_ex :
  let os := [Write (repeat 1 90); WriteByte 2; Reserve 50 [3; 4]; SeekPos; Force 200 (repeat 5 150); Flush; Write (repeat 6 120); AtEOF] in
  forallb allowed os = true /\ zlen (written os) < 2 ^ 32 /\ answers (fun _ => true) 0 0 os = [Flag true; Flag true; Flag true; Num 93; Flag true; Flag true; Flag true; Flag false] /\
  written os = repeat 1 90 ++ [2; 3; 4] ++ repeat 5 150 ++ repeat 6 120.
Proof. repeat split. Qed.

(** C23. A stream on a pipe that never fails delivers every byte once and in order by the time it is destroyed. *)
Theorem C23_pipe_delivers : forall pipe flushPipe (blk : Z) os, never_fails pipe -> honest pipe -> 100 < blk -> forallb allowed os = true ->
  usesPipe pipe flushPipe blk os = Some (answers flushPipe 0 0 os, written os, false).
Proof. exact pipe_delivers. Qed.
Print Assumptions C23_pipe_delivers.
Example C23_pipe_delivers_ex : never_fails (fun _ bs => (length bs, true)) /\ honest (fun _ bs => (length bs, true)).
Proof. split; [intros k bs; reflexivity|]. intros k bs n H. injection H as <-. apply Nat.le_refl. Qed.

(** C23. A pipe that fails has received a prefix of what was written, whatever the pipe does. *)
Theorem C23_pipe_prefix : forall pipe flushPipe (blk : Z) os ys got e, honest pipe -> 100 < blk -> forallb allowed os = true ->
  usesPipe pipe flushPipe blk os = Some (ys, got, e) -> prefix got (written os) /\ (e = false -> got = written os).
Proof. exact pipe_prefix. Qed.
Print Assumptions C23_pipe_prefix.

(** C23. No use asserts, whatever the pipe does, if tryMakeBytesAvailable is only called for one byte. *)
Theorem C23_no_assert_partial : forall pipe flushPipe (blk : Z) os, 100 < blk -> forallb allowed os = true -> forallb small_requests os = true ->
  usesPipe pipe flushPipe blk os <> None.
Proof. exact pipe_total. Qed.
Print Assumptions C23_no_assert_partial.

(** A pipe that takes 5 bytes and then fails, and a stream with blocks of 101 bytes. *)
Example C23_failing_pipe_ex :
  let pipe := fun (k : nat) (bs : list Z) => match k with O => (length bs, true) | 1%nat => (5%nat, false) | _ => (0%nat, false) end in
  let os := [Write (repeat 1 90); Flush; Write (repeat 2 50); Write (repeat 3 200); AtEOF; Write [4]; Flush] in
  honest pipe /\ forallb allowed os = true /\ forallb small_requests os = true /\
  usesPipe pipe (fun _ => true) 101 os = Some ([Flag true; Flag true; Flag false; Flag false; Flag true; Flag false; Flag true], repeat 1 90 ++ repeat 2 5, true).
Proof.
  split; [|repeat split]. intros k bs n H. destruct k as [|[|k]]; [injection H as <-; apply Nat.le_refl|discriminate|discriminate].
Qed.

(** C23 does not hold for larger requests: if the pipe fails when there is some room left in the block, the flush by the
    destructor asserts. *)
Theorem C23_large_request_refuted : exists pipe os, honest pipe /\ forallb allowed os = true /\ usesPipe pipe (fun _ => true) 4096 os = None.
Proof. exists (fun _ _ => (0%nat, false)), [WriteByte 1; Reserve 4096 []]. split; [discriminate|]. split; reflexivity. Qed.
Print Assumptions C23_large_request_refuted.

(** C23 does not hold for pieces of 2 GB and more: a write of one runs over the end of the block. *)
Theorem C23_huge_write_refuted : forall pipe flushPipe blk bs, 100 < blk < 2 ^ 31 -> 2 ^ 31 <= zlen bs < 2 ^ 32 -> usesPipe pipe flushPipe blk [Write bs] = None.
Proof. exact write_huge. Qed.
Print Assumptions C23_huge_write_refuted.
Example C23_huge_write_ex : 100 < 4096 < 2 ^ 31 /\ 2 ^ 31 <= zlen (repeat 0 (2 ^ 31)) < 2 ^ 32.
Proof. split; [lia|]. rewrite zlen_repeat. rewrite Nat2Z.inj_pow. lia. Qed.

(** C53. A stream on a buffer of [n] bytes fills it with the first [n] bytes written and no more, accepts a piece exactly
    if all of it fits, and is at the end of file from the first piece on that did not. *)
Theorem C53_view_stream : forall pipe flushPipe (blk n : Z) os, 0 <= n -> forallb plain os = true -> forallb allowed os = true ->
  usesView pipe flushPipe blk n os = Some (viewAnswers n 0 os, firstn (Z.to_nat n) (written os)).
Proof. exact view_fills. Qed.
Print Assumptions C53_view_stream.
Example C53_view_stream_ex :
  let os := [Write [1; 2]; WriteByte 3; SeekPos; AtEOF; Write [4; 5; 6]; AtEOF; WriteByte 7; Flush; SeekPos] in
  forallb plain os = true /\ forallb allowed os = true /\
  viewAnswers 5 0 os = [Flag true; Flag true; Num 3; Flag false; Flag false; Flag true; Flag false; Flag true; Num 5] /\ firstn 5 (written os) = [1; 2; 3; 4; 5].
Proof. repeat split. Qed.
