(* Model of ply-runtime/io/text/FileLocationMap.h and FileLocationMap.cpp.
   RT below is repos/plywood/src/runtime/ply-runtime. None: a failed assertion or an access out of bounds. *)
From Verif Require Export TextEncodingModel.

(** FileLocation (RT/io/text/FileLocationMap.h:12-23): columnNumber has 28 bits and numBytesIntoColumn 4. *)
Record loc := mkl { lineNumber : Z; intoLine : Z; columnNumber : Z; intoColumn : Z }.
Definition mkLoc (l i c k : Z) : loc := mkl l i (c mod 2 ^ 28) (k mod 2 ^ 4).

(** FileLocationMap.cpp:35-45 and 71-81: the line, the column and the start of the line after a point that ends at
    offset [ofs]. *)
Definition advance (p ofs : Z) (st : Z * Z * Z) : Z * Z * Z :=
  let '(line, column, lineStart) := st in
  if p =? 10 then (u32 (line + 1), 1, ofs)
  else if p =? 9 then (line, u32 (column + (4 - column mod 4)), lineStart)
  else if p =? 13 then st
  else (line, u32 (column + 1), lineStart).

(** FileLocationMap.cpp:22-46: the entries that the loop appends. *)
Fixpoint build (fuel : nat) (s : list Z) (ofs nextChunk : Z) (st : Z * Z * Z) : list loc :=
  match fuel, s with
  | S fuel, _ :: _ =>
    let d := utf8_decode s in
    let nextOfs := u32 (ofs + Z.of_nat (nbytes d)) in
    let st' := advance (point d) nextOfs st in
    let '(line, column, lineStart) := st in
    if nextChunk <? nextOfs then
      mkLoc line (u32 (nextChunk - lineStart)) column (u32 (ofs - 256)) :: build fuel (skipn (nbytes d) s) nextOfs (u32 (nextChunk + 256)) st'
    else build fuel (skipn (nbytes d) s) nextOfs nextChunk st'
  | _, _ => []
  end.
(** FileLocationMap::fromView (FileLocationMap.cpp:12-48). *)
Definition fromView (src : list Z) : list loc := mkLoc 1 0 1 0 :: build (length src) src 0 256 (1, 1, 0).

(** FileLocationMap.cpp:61-82: [ofs], the offset of [s] in the view. *)
Fixpoint find (fuel : nat) (s : list Z) (ofs target : Z) (st : Z * Z * Z) : option loc :=
  let '(line, column, lineStart) := st in
  if target <=? ofs then
    if (target - ofs <? 0) || (target - lineStart <? 0) then None else Some (mkLoc line (target - lineStart) column (target - ofs))
  else
    match fuel with
    | O => None
    | S fuel =>
      let d := utf8_decode s in
      let ofs := ofs + Z.of_nat (nbytes d) in
      find fuel (skipn (nbytes d) s) ofs target (advance (point d) ofs st)
    end.
(** FileLocationMap::getFileLocation (FileLocationMap.cpp:50-83). *)
Definition getFileLocation (table : list loc) (view : list Z) (offset : Z) : option loc :=
  if offset <=? zlen view then
    match nth_error table (Z.to_nat (offset / 256)) with
    | None => None
    | Some f =>
      let chunkOfs := offset - offset mod 256 in
      let from := chunkOfs - intoColumn f in
      if (0 <=? from) && (from <=? zlen view) then
        find (length view) (skipn (Z.to_nat from) view) from offset (lineNumber f, columnNumber f, chunkOfs - intoLine f)
      else None
    end
  else None.
Definition locate (view : list Z) (offset : Z) : option loc := getFileLocation (fromView view) view offset.
