(* Model of extractLiquidTags in ply-runtime/io/text/LiquidTags.cpp.
   RT below is repos/plywood/src/runtime/ply-runtime. The stream is the bytes still to be read; a read at the end of a
   view stream sets its end-of-file flag (InStreamModel.v), so [atEOF] is: nothing is left. *)
From Coq Require Import List ZArith. Import ListNotations. Open Scope Z_scope.
From Verif Require Import Base.

(** How the loop inside a tag (RT/io/text/LiquidTags.cpp:43-68) ends: at "%>", with the bytes that follow and the bytes
    collected; at the end of the file, with the bytes collected; or by a return from the function. *)
Inductive ending := Closed (rest got : list Z) | Unclosed (got : list Z) | Left.
(** LiquidTags.cpp:43-68. [got] collects what [mout] has. After "%x" the byte x is still the current one (58-59 advance
    over nothing), so it is looked at again. The loop is entered with a byte available (44-46). *)
Fixpoint inTag (s got : list Z) : ending :=
  match s with
  | [] => Left
  | u :: s' =>
    if u =? 37 then
      match s' with
      | [] => Left
      | x :: rest => if x =? 62 then Closed rest got else inTag s' (got ++ [u; x])
      end
    else
      match s' with
      | [] => Unclosed (got ++ [u])
      | _ :: _ => inTag s' (got ++ [u])
      end
  end.

(** What the function has done when it returns: the bytes written to [outs] and the calls of [tagHandler]. *)
Record done := mkdone { written : list Z; calls : list (list Z * list Z) }.
Definition write (b : list Z) (d : done) : done := mkdone (b ++ written d) (calls d).
Definition call (whole tag : list Z) (d : done) : done := mkdone (written d) ((whole, tag) :: calls d).
Definition finish : done := mkdone [] [].

(** LiquidTags.cpp:25-87, one turn of the loop for each unit of fuel. *)
Fixpoint extractLoop (fuel : nat) (s : list Z) : done :=
  match fuel, s with
  | O, _ | _, [] => finish
  | S fuel, u :: s1 =>
    if u =? 60 then
      match s1 with
      | [] => write [u] finish
      | x :: s2 =>
        if x =? 37 then
          match s2 with
          | [] => finish
          | _ :: _ =>
            match inTag s2 [] with
            | Left => finish
            | Unclosed got => call s got finish
            | Closed rest got =>
              (* StringView::fromRange(startByte, vins->curByte) *)
              call (firstn (length s - length rest) s) got (extractLoop fuel rest)
            end
          end
        else write [u; x] (extractLoop fuel s2)
      end
    else write [u] (extractLoop fuel s1)
  end.
(** extractLiquidTags (LiquidTags.cpp:11-88). *)
Definition extractLiquidTags (s : list Z) : done := extractLoop (length s) s.
