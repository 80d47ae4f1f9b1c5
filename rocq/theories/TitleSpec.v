(* What a title of a member means. *)
From Coq Require Import String.
From Verif Require Import Base Txt EscapeSpec TitleModel.
Local Open Scope string_scope.
Local Open Scope list_scope.
Local Open Scope Z_scope.

(** Text in which backslash and square brackets, and any other byte that one likes, have a backslash before
    them. *)
Inductive escapes : list Z -> list Z -> Prop :=
| escapes_nil : escapes [] []
| escapes_byte c s t : ~ In c (txt "\[]") -> escapes s t -> escapes (c :: s) (c :: t)
| escapes_any c s t : escapes s t -> escapes (92 :: c :: s) (c :: t).

Inductive keyword : spanType -> list Z -> Prop :=
| keyword_strong : keyword Strong (txt "strong")
| keyword_em : keyword Em (txt "em")
| keyword_qid : keyword QID (txt "qid").

(** A text is a span unless it is empty. *)
Definition spanned (ty : spanType) (t : list Z) : list (spanType * list Z) := match t with [] => [] | _ => [(ty, t)] end.

(** Text and spans in brackets by turns. A single backslash at the end counts for nothing. *)
Inductive title : list Z -> list (spanType * list Z) -> Prop :=
| title_end s t : escapes s t -> title s (spanned Normal t)
| title_backslash s t : escapes s t -> title (s ++ [92]) (spanned Normal t)
| title_span s t ty kw u v rest l : escapes s t -> keyword ty kw -> escapes u v -> title rest l ->
    title (s ++ txt "[" ++ kw ++ txt " " ++ u ++ txt "]" ++ rest) (spanned Normal t ++ spanned ty v ++ l).

(** What HTML shows: text with entities, in bold or slanted type, and links. *)
Inductive shows (link : list Z -> list Z) : list Z -> list (spanType * list Z) -> Prop :=
| shows_nil : shows link [] []
| shows_text e t h l : xml_text e t -> shows link h l -> shows link (e ++ h) ((Normal, t) :: l)
| shows_strong e t h l : xml_text e t -> shows link h l -> shows link (txt "<strong>" ++ e ++ txt "</strong>" ++ h) ((Strong, t) :: l)
| shows_em e t h l : xml_text e t -> shows link h l -> shows link (txt "<em>" ++ e ++ txt "</em>" ++ h) ((Em, t) :: l)
| shows_plain_qid e t h l : xml_text e t -> link t = [] -> shows link h l -> shows link (e ++ h) ((QID, t) :: l)
| shows_link d e t h l : xml_text e t -> link t <> [] -> xml_text d (link t) -> shows link h l ->
    shows link (txt "<a href=" ++ [34] ++ d ++ [34] ++ txt ">" ++ e ++ txt "</a>" ++ h) ((QID, t) :: l).

(** Where an error is said to be. *)
Definition place (e : titleError) : Z :=
  match e with ExpectedSpanType l | UnclosedSpan l | Unrecognized _ l | ExpectedSpace _ l | UnexpectedClose l => l end.

(** Spans with text in them, ordinary text never beside ordinary text. *)
Fixpoint regular (l : list (spanType * list Z)) : Prop :=
  match l with
  | [] => True
  | (ty, t) :: r => t <> [] /\ (ty = Normal -> match r with (Normal, _) :: _ => False | _ => True end) /\ regular r
  end.
