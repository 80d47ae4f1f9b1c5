(* Model of the titles of members in the documentation.
   repos/plywood/src/web/cook-docs/ply-web-cook-docs/SymbolTitle.cpp:39-146, SymbolTitle.h:15-33.
   The stream is the list of bytes not yet read. A location is the number of bytes before it. What is
   appended to the result and told to the callback is given back in that order. *)
From Coq Require Import String.
From Verif Require Export Base ScanModel EscapeModel.
From Verif Require Import Txt.
Local Open Scope string_scope.
Local Open Scope list_scope.
Local Open Scope Z_scope.
Local Notation length := List.length.

(** SymbolTitle.h:15-24. *)
Inductive spanType := Normal | Strong | Em | QID.
Definition span : Type := spanType * list Z.
(** SymbolTitle.h:26-33, with the argument and the location. *)
Inductive titleError :=
| ExpectedSpanType (loc : Z) | UnclosedSpan (loc : Z) | Unrecognized (arg : list Z) (loc : Z)
| ExpectedSpace (arg : list Z) (loc : Z) | UnexpectedClose (loc : Z).

Definition isNormal (t : spanType) : bool := match t with Normal => true | _ => false end.
Definition sameText (a b : list Z) : bool := if list_eq_dec Z.eq_dec a b then true else false.

(** SymbolTitle.cpp:48-54 [flushSpan]. *)
Definition flushSpan (ty : spanType) (text : list Z) : list span := match text with [] => [] | _ => [(ty, text)] end.

Definition emit (l : list span) (es : list titleError) (r : option (list span * list titleError)) : option (list span * list titleError) :=
  match r with Some (l', es') => Some (l ++ l', es ++ es') | None => None end.

(** InStream.h [readView<fmt::Identifier>]: the bytes that the parser goes over, and the rest. *)
Definition readIdentifier (ins : list Z) : list Z * list Z :=
  let rest := snd (parse_identifier ins 0) in (firstn (length ins - length rest) ins, rest).

(** SymbolTitle.cpp:68-79: the type of the span that begins, and the error; [loc] is where the type is,
    one byte behind the bracket. *)
Definition spanTypeOf (w : list Z) (old : spanType) (loc : Z) : spanType * list titleError :=
  match w with
  | [] => (old, [ExpectedSpanType (loc - 1)])
  | _ => if sameText w (txt "strong") then (Strong, [])
         else if sameText w (txt "em") then (Em, [])
         else if sameText w (txt "qid") then (QID, [])
         else (Strong, [Unrecognized w loc])
  end.

(** SymbolTitle.cpp:80-85: one space is expected. *)
Definition skipSpace (n : Z) (w rest : list Z) : list Z * list titleError :=
  match rest with
  | 32 :: r => (r, [])
  | _ => (rest, [ExpectedSpace w (n - zlen rest)])
  end.

(** SymbolTitle.cpp:56-102: the loop and what follows it. [n] is the length of the source, [ins] what is not
    yet read, [text] what is in [mout], [ty] is [inSpanType], [start] is [spanStart]. *)
Fixpoint title_loop (fuel : nat) (n : Z) (ins text : list Z) (ty : spanType) (start : Z) : option (list span * list titleError) :=
  match fuel with
  | O => None
  | S fuel =>
    match ins with
    | [] => Some (flushSpan ty text, if isNormal ty then [] else [UnclosedSpan start])          (* :98-101 *)
    | c :: r =>
      if c =? 92 then                                                                            (* :58-61 *)
        match r with
        | [] => title_loop fuel n [] text ty start
        | d :: r => title_loop fuel n r (text ++ [d]) ty start
        end
      else if c =? 91 then                                                                       (* :62-85 *)
        let es1 := if isNormal ty then [] else [UnclosedSpan start] in
        let start1 := n - zlen r - 1 in
        let '(w, rest) := readIdentifier r in
        let '(ty1, es2) := spanTypeOf w ty (n - zlen r) in
        let '(rest1, es3) := skipSpace n w rest in
        emit (flushSpan ty text) (es1 ++ es2 ++ es3) (title_loop fuel n rest1 [] ty1 start1)
      else if c =? 93 then                                                                       (* :86-93 *)
        if isNormal ty then emit [] [UnexpectedClose (n - zlen r - 1)] (title_loop fuel n r text ty start)
        else emit (flushSpan ty text) [] (title_loop fuel n r [] Normal start)
      else title_loop fuel n r (text ++ [c]) ty start                                            (* :94-96 *)
    end
  end.

(** SymbolTitle.cpp:39-106 [parseTitle]: the spans and the errors. *)
Definition parseTitle (src : list Z) : option (list span * list titleError) :=
  title_loop (S (length src)) (zlen src) src [] Normal 0.

(** SymbolTitle.cpp:108-144 [writeAltMemberTitle]; [link] is [getLinkDestination], which gives an empty text if
    there is none. *)
Definition writeSpan (link : list Z -> list Z) (s : span) : list Z :=
  match fst s with
  | Normal => xmlEscape (snd s) 0
  | Strong => txt "<strong>" ++ xmlEscape (snd s) 0 ++ txt "</strong>"
  | Em => txt "<em>" ++ xmlEscape (snd s) 0 ++ txt "</em>"
  | QID => let dst := link (snd s) in
           (match dst with [] => [] | _ => txt "<a href=" ++ [34] ++ xmlEscape dst 0 ++ [34] ++ txt ">" end) ++
           xmlEscape (snd s) 0 ++
           (match dst with [] => [] | _ => txt "</a>" end)
  end.
Definition writeTitle (link : list Z -> list Z) (spans : list span) : list Z := concat (map (writeSpan link) spans).
