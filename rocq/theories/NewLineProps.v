(* C05: the newline filter. *)
From Coq Require Import List ZArith Lia. Import ListNotations. Open Scope Z_scope.
From Verif Require Import Base NewLineModel NewLineSpec NewLineProofs.

(** C05: each piece written through the filter is passed on with its line endings replaced, and the write succeeds, whatever
    the pieces and the blocks of the output stream: [first] bytes are free in the first block, [fresh k] in the next ones. *)
Theorem C05_writing : forall crlf fresh first (pieces : list (list Z)),
  (forall k, (2 <= fresh k)%nat) -> filtered crlf fresh first pieces = Some (map (fun p => (newlines crlf p, true)) pieces).
Proof. exact filtered_right. Qed.
Print Assumptions C05_writing.
Example C05_writing_ex : filtered true (fun _ => 3%nat) 1 [[65; 10]; [13; 10; 10; 66]; [10; 67; 13]]
  = Some [([65; 13; 10], true); ([13; 10; 13; 10; 66], true); ([13; 10; 67], true)].
Proof. vm_compute. reflexivity. Qed.

(** C05: reading through the filter with buffers of any sizes delivers the text without its CRs, in order; a call returns
    nothing only when all of it was delivered. *)
Theorem C05_reading : forall offer text rooms, Forall (fun n => 0 < n)%nat rooms ->
  exists outs rest, readFiltered offer text rooms = Some outs /\ newlines false text = concat outs ++ rest /\
    (In [] outs -> rest = []) /\ Forall2 (fun out room => (length out <= room)%nat) outs rooms.
Proof. exact read_filtered_right. Qed.
Print Assumptions C05_reading.
Example C05_reading_ex : readFiltered (fun k => (k mod 2)%nat) [65; 13; 10; 13; 13; 66; 10; 67; 13] [1; 4; 4; 4; 4; 4; 4]%nat = Some [[65]; [10]; [66]; [10]; [67]; []; []].
Proof. vm_compute. reflexivity. Qed.

(** With blocks of one byte the filter stops after the line feed it owes, and drops the rest of the piece. *)
Theorem C05_tiny_blocks_refuted : exists fresh piece, (forall k, (1 <= fresh k)%nat) /\
  filtered true fresh 0 [piece] = Some [([13; 10], false)] /\ newlines true piece = [13; 10; 66].
Proof. exists (fun _ => 1%nat), [10; 66]. split; [lia|]. vm_compute. split; reflexivity. Qed.
Print Assumptions C05_tiny_blocks_refuted.
