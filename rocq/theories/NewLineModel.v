(* Model of ply-runtime/io/text/NewLineFilter.cpp. RT below is repos/plywood/src/runtime/ply-runtime. None: a failed
   assertion. *)
From Verif Require Export Base.

Section NewLineFilter.
(** NewLineFilter::crlf (RT/io/text/NewLineFilter.cpp:18). *)
Context (crlf : bool).

(** NewLineFilter.cpp:28-41: the source bytes left, and the next byte if there is one. *)
Fixpoint nextByte (s : list Z) : list Z * option Z :=
  match s with
  | [] => ([], None)
  | c :: s => if c =? 13 then nextByte s else (s, Some c)
  end.
(** NewLineFilter::process (NewLineFilter.cpp:21-45) with [room] bytes free at the destination: needsLF afterwards, the
    source bytes left, and the bytes written. *)
Fixpoint process (room : nat) (needsLF : bool) (s : list Z) : bool * list Z * list Z :=
  match room with
  | O => (needsLF, s, [])
  | S room =>
    if needsLF then let '(n, s, out) := process room false s in (n, s, 10 :: out)
    else
      match nextByte s with
      | (s, None) => (false, s, [])
      | (s, Some c) =>
        if (c =? 10) && crlf then let '(n, s, out) := process room true s in (n, s, 13 :: out)
        else let '(n, s, out) := process room false s in (n, s, c :: out)
      end
  end.

(** The output stream: [avail] bytes are free in its block; when none is, the [k]-th new block has [fresh k] bytes, none if
    the stream fails (RT/io/OutStream.cpp:97-135). *)
Context (fresh : nat -> nat).
Definition tryMake (avail k : nat) : nat * nat := match avail with O => (fresh k, S k) | _ => (avail, k) end.

(** OutPipe_NewLineFilter_write (NewLineFilter.cpp:114-137): [total], the bytes read so far of the [len] bytes of the piece. *)
Record wstate := mkw { needsLF : bool; avail : nat; blocks : nat }.
Fixpoint writeLoop (fuel : nat) (w : wstate) (s : list Z) (total len : nat) : option (wstate * list Z * bool) :=
  match fuel with
  | O => None
  | S fuel =>
    let (a, k) := tryMake (avail w) (blocks w) in
    let '(n, s', out) := process a (needsLF w) s in
    let w := mkw n (a - length out) k in
    let read := (length s - length s')%nat in
    if (read =? 0)%nat then
      if (total <=? len)%nat then Some (w, out, (len <=? total)%nat) else None
    else
      match writeLoop fuel w s' (total + read) len with
      | Some (w, out', ok) => Some (w, out ++ out', ok)
      | None => None
      end
  end.
Definition write (w : wstate) (s : list Z) : option (wstate * list Z * bool) := writeLoop (S (S (length s))) w s 0 (length s).
Fixpoint writes (w : wstate) (pieces : list (list Z)) : option (list (list Z * bool)) :=
  match pieces with
  | [] => Some []
  | p :: pieces =>
    match write w p with
    | None => None
    | Some (w, out, ok) => match writes w pieces with Some outs => Some ((out, ok) :: outs) | None => None end
    end
  end.
(** What each write of a fresh filter passes on, and its answer; [first]: the bytes free in the first block. *)
Definition filtered (first : nat) (pieces : list (list Z)) : option (list (list Z * bool)) := writes (mkw false first 0) pieces.
End NewLineFilter.

(** InPipe_NewLineFilter_readSome (NewLineFilter.cpp:62-83), whose filter has crlf false. [cur]: the bytes available in the
    input stream; [todo]: those not yet available; the [k]-th tryMakeBytesAvailable makes [offer k] of them available, at
    least one if there is one. *)
Section Reading.
Context (offer : nat -> nat).
Record rstate := mkr { needs : bool; cur : list Z; todo : list Z; calls : nat }.
Fixpoint readSome (fuel : nat) (r : rstate) (room : nat) : option (rstate * list Z) :=
  match fuel with
  | O => None
  | S fuel =>
    let '(n, s, out) := process false room (needs r) (cur r) in
    match out with
    | _ :: _ => Some (mkr n s (todo r) (calls r), out)
    | [] =>
      match s with
      | _ :: _ => None
      | [] =>
        match todo r with
        | [] => Some (mkr n [] [] (S (calls r)), [])
        | _ => let k := S (offer (calls r)) in readSome fuel (mkr n (firstn k (todo r)) (skipn k (todo r)) (S (calls r))) room
        end
      end
    end
  end.
Fixpoint reads (r : rstate) (rooms : list nat) : option (list (list Z)) :=
  match rooms with
  | [] => Some []
  | n :: rooms =>
    match (if (n =? 0)%nat then None else readSome (S (S (length (todo r)))) r n) with
    | None => None
    | Some (r, out) => match reads r rooms with Some outs => Some (out :: outs) | None => None end
    end
  end.
Definition readFiltered (text : list Z) (rooms : list nat) : option (list (list Z)) := reads (mkr false [] text 0) rooms.
End Reading.
