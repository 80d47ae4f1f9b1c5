(* Model of ply-runtime/io/text/TextFormat.h and TextFormat.cpp: saving, detecting and loading text files. RT below is
   repos/plywood/src/runtime/ply-runtime. None: a failed assertion or undefined behaviour.
   The streams, the text converter and the newline filter are those of InStreamModel, TextConvModel and NewLineModel. *)
From Verif Require Export TextEncodingModel TextConvModel.
From Verif Require Export InStreamModel.
From Verif Require NewLineModel.

Notation "'do' p <- m ; k" := (match m with Some p => k | None => None end) (at level 200, p pattern, m at level 100, k at level 200).

(** RT/io/text/TextFormat.h:25-50. [crlf]: newLine is CRLF. *)
Inductive enc := EBytes | EUTF8 | EUTF16be | EUTF16le.
Record format := mkf { encOf : enc; crlf : bool; bom : bool }.

(** TextFormat.cpp:56-69. *)
Definition encodingFromEnum (e : enc) : encoding :=
  match e with EBytes => Enc_Bytes | EUTF8 => Enc_UTF8 | EUTF16be => Enc_UTF16 true | EUTF16le => Enc_UTF16 false end.

(* ---- binary32 numbers: [(m, e)] is m * 2^e ---- *)
(** The integer nearest to a / b, the even one if there are two. *)
Definition rdiv (a b : Z) : Z :=
  let q := a / b in
  let r := 2 * (a mod b) in
  if (r <? b) || ((r =? b) && Z.even q) then q else q + 1.
(** The nearest number with a significand of 24 bits. *)
Definition rnd (x : Z * Z) : Z * Z :=
  let (m, e) := x in
  let k := Z.max 0 (Z.log2 (Z.abs m) - 23) in
  (Z.sgn m * rdiv (Z.abs m) (2 ^ k), e + k).
Definition fmul (x y : Z * Z) : Z * Z := rnd (fst x * fst y, snd x + snd y).
(** 1.f / n. *)
Definition recip (n : Z) : Z * Z := let k := 24 + Z.log2 n in (rdiv (2 ^ k) n, - k).
Definition fle (x y : Z * Z) : bool :=
  let e := Z.min (snd x) (snd y) in fst x * 2 ^ (snd x - e) <=? fst y * 2 ^ (snd y - e).
(** 0.2f. *)
Definition f02 : Z * Z := (13421773, -26).

(* ---- TextFileStats ---- *)
(** TextFormat.cpp:24-35, without totalPointValue and numNull, which nothing reads. *)
Record stats := mkst { numPoints : Z; numValid : Z; numLines : Z; numCRLF : Z; numControl : Z; numPlain : Z; numWhite : Z; numExt : Z;
                       ooNum : Z * Z }.
Definition noStats : stats := mkst 0 0 0 0 0 0 0 0 (0, 0).
(** TextFormat.cpp:37-39. *)
Definition numInvalid (t : stats) : Z := u32 (numPoints t - numValid t).
(** TextFormat.cpp:40-47: whether it is CRLF. *)
Definition getNewLineType (t : stats) : option bool :=
  if numCRLF t <=? numLines t then Some (negb ((numCRLF t =? 0) || (u32 (numCRLF t * 2) <? numLines t))) else None.
(** TextFormat.cpp:48-53. With at most 4003 points all sums of the numerator are multiples of 1/2 below 2^20, which are
    exact: the only rounding is in the last product. *)
Definition getScore (t : stats) : Z * Z :=
  fmul (5 * numWhite t + 2 * numPlain t - 200 * numInvalid t - 100 * numControl t + 10 * numExt t, -1) (ooNum t).

(** TextFormat.cpp:83-114. *)
Definition plus (t : stats) (v l c k p w x : Z) : stats :=
  mkst (numPoints t + 1) (numValid t + v) (numLines t + l) (numCRLF t + c) (numControl t + k) (numPlain t + p) (numWhite t + w)
    (numExt t + x) (ooNum t).
Definition count (t : stats) (d : dres) (prevWasCR : bool) : stats :=
  match stat d with
  | Valid =>
    if point d <? 32 then
      if point d =? 10 then plus t 1 1 (if prevWasCR then 1 else 0) 0 1 1 0
      else if point d =? 9 then plus t 1 0 0 0 1 1 0
      else if point d =? 13 then plus t 1 0 0 0 1 0 0
      else plus t 1 0 0 1 0 0 0
    else if point d <? 127 then plus t 1 0 0 0 1 (if point d =? 32 then 1 else 0) 0
    else if 65536 <=? point d then plus t 1 0 0 0 0 0 1
    else plus t 1 0 0 0 0 0 0
  | _ => plus t 0 0 0 0 0 0 0
  end.
(** TextFormat.cpp:117-119. *)
Definition finish (t : stats) : stats :=
  mkst (numPoints t) (numValid t) (numLines t) (numCRLF t) (numControl t) (numPlain t) (numWhite t) (numExt t)
    (if 0 <? numPoints t then recip (numPoints t) else ooNum t).

(* ---- detection ---- *)
Section Streams.
(** How the pipe cuts its data, and the size of a block (see InStreamModel). *)
Context (cut : nat -> nat) (blk : Z).

(** BlockList::Ref start = ins->getBlockRef(), ins->rewind(start) and the end of the scope of start. *)
Definition save (s : stream) : option (stream * nat) :=
  do r <- getBlockRef s; Some (setMarks s (marks s ++ [Some r]), length (marks s)).
Definition back (s : stream) (k : nat) : option stream :=
  match nth_error (marks s) k with Some (Some r) => rewind s r | _ => None end.
Definition release (s : stream) (k : nat) : stream := setMarks s (upd (marks s) k None).

(** TextFormat.cpp:73-121. Every turn but the last takes a byte or more. *)
Fixpoint scanLoop (fuel : nat) (e : encoding) (s : stream) (t : stats) (prevWasCR : bool) (numBytes maxBytes : Z) : option (stream * stats * Z) :=
  if numBytes <? maxBytes then
    match fuel with
    | O => None
    | S fuel =>
      do (s, _) <- tryMake cut blk s 4;
      let d := decode e (view s) in
      match stat d with
      | Truncated => Some (s, finish t, numBytes)
      | _ =>
        if (0 <=? point d) && (0 <? nbytes d)%nat then
          scanLoop fuel e (advance s (Z.of_nat (nbytes d))) (count t d prevWasCR) (point d =? 13) (numBytes + Z.of_nat (nbytes d)) maxBytes
        else None
      end
    end
  else Some (s, finish t, numBytes).
Definition scanTextFile (s : stream) (e : encoding) (maxBytes : Z) : option (stream * stats * Z) :=
  scanLoop (S (Z.to_nat maxBytes)) e s noStats false 0 maxBytes.
(** TextFormat.h:35. *)
Definition NumBytesForAutodetect : Z := 4000.

(** TextFormat.cpp:140-151: the statistics of the 8-bit encoding, and which it is. *)
Definition choose8 (t : stats) (numBytesRead : Z) : stats * enc :=
  let high := u32 (numBytesRead - numPlain t - numControl t) in
  if fle (fmul (high, 0) f02) (numInvalid t, 0) then
    (mkst numBytesRead numBytesRead (numLines t) (numCRLF t) (numControl t) (numPlain t) (numWhite t) (numExt t) (ooNum t), EBytes)
  else (t, EUTF8).
(** TextFormat.cpp:164-176: the statistics chosen, and the encoding. *)
Definition choose (t8 : stats) (e8 : enc) (le be : stats) : stats * enc :=
  let (t, e) := if fle (getScore be) (getScore le) then (le, EUTF16le) else (be, EUTF16be) in
  if fle (getScore t) (getScore t8) then (t8, e8) else (t, e).

(** TextFormat.cpp:123-180. *)
Definition guessFileEncoding (s : stream) : option (stream * format) :=
  do (s, start) <- save s;
  do (s, t8, numBytesRead) <- scanTextFile s Enc_UTF8 NumBytesForAutodetect;
  if numBytesRead =? 0 then Some (release s start, mkf EUTF8 false false) else
  do s <- back s start;
  if (numInvalid t8 =? 0) && (numControl t8 =? 0) then
    do nl <- getNewLineType t8; Some (release s start, mkf EUTF8 nl false)
  else
    let (t8, e8) := choose8 t8 numBytesRead in
    do (s, le, _) <- scanTextFile s (Enc_UTF16 false) NumBytesForAutodetect;
    do s <- back s start;
    do (s, be, _) <- scanTextFile s (Enc_UTF16 true) NumBytesForAutodetect;
    do s <- back s start;
    let (t, e) := choose t8 e8 le be in
    do nl <- getNewLineType t; Some (release s start, mkf e nl false).

(** TextFormat.cpp:182-213. *)
Definition autodetect (s : stream) : option (stream * format) :=
  do (s, start) <- save s;
  do (s, h0) <- readByte cut blk s;
  do (s, h1) <- readByte cut blk s;
  do (s, e) <-
    (if (h0 =? 0xef) && (h1 =? 0xbb) then do (s, h2) <- readByte cut blk s; Some (s, if h2 =? 0xbf then Some EUTF8 else None)
     else if (h0 =? 0xfe) && (h1 =? 0xff) then Some (s, Some EUTF16be)
     else if (h0 =? 0xff) && (h1 =? 0xfe) then Some (s, Some EUTF16le)
     else Some (s, None));
  do s <- back s start;
  match e with
  | None => do (s, f) <- guessFileEncoding s; Some (release s start, f)
  | Some e =>
    do (s, start2) <- save s;
    do (s, t, _) <- scanTextFile s (encodingFromEnum e) NumBytesForAutodetect;
    do s <- back s start2;
    do nl <- getNewLineType t; Some (release (release s start2) start, mkf e nl true)
  end.

(* ---- loading ---- *)
(** The bytes of the marks compared and written in TextFormat.cpp:230,236,242,277,284,293. *)
Definition markBytes (e : enc) : list Z :=
  match e with EBytes => [] | EUTF8 => [0xef; 0xbb; 0xbf] | EUTF16be => [0xfe; 0xff] | EUTF16le => [0xff; 0xfe] end.
Fixpoint same (a b : list Z) : bool :=
  match a, b with [], [] => true | x :: a, y :: b => (x =? y) && same a b | _, _ => false end.
(** TextFormat.cpp:219-251. *)
Definition skipBom (f : format) (s : stream) : option stream :=
  if bom f then
    do (s, start) <- save s;
    match encOf f with
    | EBytes => None
    | e =>
      do (s, h, valid) <- read cut blk s (repeat 0 (length (markBytes e)));
      do s <- (if valid && same h (markBytes e) then Some s else back s start);
      Some (release s start)
    end
  else Some s.

(** RT/io/text/TextConverter.cpp:160-187 [readFrom], to UTF-8, from a stream, with room for [room] bytes. Every turn but
    the last takes a byte or more. *)
Fixpoint convRead (fuel : nat) (e : encoding) (c : conv) (s : stream) (room : nat) : option (conv * stream * list Z) :=
  match fuel with
  | O => None
  | S fuel =>
    do (s, _) <- tryMake cut blk s 4;
    let v := view s in
    do (c, r, out) <- convert Enc_UTF8 e c v room (eof s);
    let s := advance s (zlen v - zlen r) in
    match out with
    | _ :: _ => Some (c, s, out)
    | [] => if eof s then match r with [] => Some (c, s, []) | _ => None end else convRead fuel e c s room
    end
  end.
(** Reading the converter until it gives nothing: the [k]-th time there is room for [rooms k] bytes. *)
Fixpoint convAll (fuel turns : nat) (e : encoding) (c : conv) (s : stream) (rooms : nat -> nat) (k : nat) : option (list Z) :=
  match turns with
  | O => None
  | S turns =>
    do (c, s, out) <- convRead fuel e c s (rooms k);
    match out with [] => Some [] | _ => do rest <- convAll fuel turns e c s rooms (S k); Some (out ++ rest) end
  end.

(** RT/io/text/NewLineFilter.cpp:62-83 from a stream. *)
Fixpoint filterRead (fuel : nat) (needsLF : bool) (s : stream) (room : nat) : option (bool * stream * list Z) :=
  match fuel with
  | O => None
  | S fuel =>
    if (room =? 0)%nat then None else
    let v := view s in
    let '(n, r, out) := NewLineModel.process false room needsLF v in
    let s := advance s (zlen v - zlen r) in
    match out, r with
    | _ :: _, _ => Some (n, s, out)
    | [], _ :: _ => None
    | [], [] => do (s, c) <- tryMake cut blk s 1; if c =? 0 then Some (n, s, []) else filterRead fuel n s room
    end
  end.
Fixpoint filterAll (fuel turns : nat) (needsLF : bool) (s : stream) (rooms : nat -> nat) (k : nat) : option (list Z) :=
  match turns with
  | O => None
  | S turns =>
    do (n, s, out) <- filterRead fuel needsLF s (rooms k);
    match out with [] => Some [] | _ => do rest <- filterAll fuel turns n s rooms (S k); Some (out ++ rest) end
  end.
End Streams.

Section Files.
(** [cut1], [cut2]: how the pipes of the file and of the converter cut their data; [rooms1], [rooms2]: the room that the
    readers of the converter and of the newline filter have. The two streams have blocks of [blk] bytes. *)
Context (cut1 cut2 : nat -> nat) (rooms1 rooms2 : nat -> nat) (blk : Z).

(** TextFormat.cpp:217-265 [createImporter], and reading all of it, from a stream with at most [size] bytes left.
    Simplification: the converter is read to its end before the newline filter starts; what it delivers does not depend
    on when it is asked. *)
Definition importAll (f : format) (s : stream) (size : nat) : option (list Z) :=
  do s <- skipBom cut1 blk f s;
  match encOf f with
  | EUTF8 => filterAll cut1 blk (S (S size)) (S (S size)) false s rooms2 0
  | e =>
    do text <- convAll cut1 blk (S (S size)) (S (S (4 * size))) (encodingFromEnum e) (mkc [] []) s rooms1 0;
    do s <- open blk text;
    filterAll cut2 blk (S (S (length text))) (S (S (length text))) false s rooms2 0
  end.
(** RT/filesystem/FileSystem.cpp:148-155 [loadText], for the contents of a file. *)
Definition loadText (f : format) (file : list Z) : option (list Z) :=
  do s <- open blk file; importAll f s (length file).
(** FileSystem.cpp:157-164 [loadTextAutodetect]. *)
Definition loadTextAutodetect (file : list Z) : option (list Z * format) :=
  do s <- open blk file;
  do (s, f) <- autodetect cut1 blk s;
  do text <- importAll f s (length file);
  Some (text, f).
Definition detected (file : list Z) : option format :=
  do s <- open blk file; do (_, f) <- autodetect cut1 blk s; Some f.
End Files.

(* ---- saving ---- *)
(** An output stream passes its bytes on in pieces: all but the last have the size of a block, here arbitrary sizes. *)
Fixpoint cutUp (sizes : list nat) (bytes : list Z) : list (list Z) :=
  match sizes with
  | [] => [bytes]
  | n :: sizes => if (length bytes <=? n)%nat then [bytes] else firstn n bytes :: cutUp sizes (skipn n bytes)
  end.
Section Saving.
(** [first], [fresh]: the room in the blocks of the stream that the newline filter writes to, [sizes]: the pieces that this
    stream passes to the converter, [space]: the room that the converter finds in the stream of the file. *)
Context (fresh : nat -> nat) (first : nat) (sizes : list nat) (space : nat -> nat).

(** TextFormat.cpp:267-304 [createExporter], writing [pieces] through it and destroying it, which flushes the converter
    twice (RT/io/OutStream.cpp:44-55 and 81-88 for both streams): the contents of the file. *)
Definition exportAll (f : format) (pieces : list (list Z)) : option (list Z) :=
  do outs <- NewLineModel.filtered (crlf f) fresh first pieces;
  let bytes := concat (map fst outs) in
  let mark := if bom f then markBytes (encOf f) else [] in
  match encOf f with
  | EBytes => Some bytes
  | EUTF8 => Some (mark ++ bytes)
  | e => do b <- piped (encodingFromEnum e) Enc_UTF8 space (map Write (cutUp sizes bytes) ++ [Flush; Flush]); Some (mark ++ b)
  end.
End Saving.
