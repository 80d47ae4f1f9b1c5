(* What the blocks of a Markdown document must contain, independently of the parser. *)
From Coq Require Import String.
From Verif Require Export MarkdownSpec.
Local Open Scope list_scope.
Local Notation length := List.length.

(** The lines of a source; every line but the last ends with a newline. *)
Inductive linesOf : list Z -> list (list Z) -> Prop :=
| lo_nil : linesOf [] []
| lo_last l : l <> [] -> ~ In 10 l -> linesOf l [l]
| lo_cons l s ls : ~ In 10 l -> linesOf s ls -> linesOf (l ++ [10] ++ s) ((l ++ [10]) :: ls).
(** The characters of indentation and markers: white space, > * - + # . ) and digits. *)
Definition markChar (c : Z) : Prop := white c \/ In c [62; 42; 45; 43; 35; 46; 41] \/ 48 <= c <= 57.
(** What becomes of a line: nothing; a text of a paragraph or heading; or a line of code. Blocks are numbered. *)
Inductive entry := Nothing | Put (i : nat) (t : list Z) | Code (i : nat) (t : list Z).
Inductive entryOf : list Z -> entry -> Prop :=
| en_none line : Forall markChar line -> entryOf line Nothing
| en_text i m t w : hugs t -> Forall markChar m -> Forall white w -> entryOf (m ++ t ++ w) (Put i t)
| en_code i m t : t <> [] -> Forall markChar m -> entryOf (m ++ t) (Code i t)
| en_tab i m t j : Forall markChar m -> (1 <= j <= 3)%nat -> entryOf (m ++ [9] ++ t) (Code i (repeat 32 j ++ t)).
Definition textsOf (i : nat) (es : list entry) : list (list Z) :=
  flat_map (fun e => match e with Put j t => if (j =? i)%nat then [t] else [] | _ => [] end) es.
Definition codeOf (i : nat) (es : list entry) : list (list Z) :=
  flat_map (fun e => match e with Code j t => if (j =? i)%nat then [t] else [] | _ => [] end) es.
Definition target (e : entry) : option nat := match e with Nothing => None | Put i _ | Code i _ => Some i end.
(** Lines of code, with empty lines between them. *)
Inductive spread : list (list Z) -> list (list Z) -> Prop :=
| sp_nil : spread [] []
| sp_one r ts n x : spread r ts -> spread (r ++ repeat [10] n ++ [x]) (ts ++ [x]).

(** The paragraphs, headings and code blocks of blocks, in the order of the page. *)
Fixpoint leaves (b : block) : list block :=
  match b with
  | BList _ _ l | BItem l | BQuote l => flat_map leaves l
  | _ => [b]
  end.
(** A paragraph, heading or code block has the texts of block [i], all of them and in their order. *)
Definition holds (es : list entry) (i : nat) (b : block) : Prop :=
  match b with
  | BPara l | BHeading _ _ l => codeOf i es = [] /\ textsOf i es <> [] /\ saysAll l (joined (textsOf i es))
  | BCode lines => textsOf i es = [] /\ codeOf i es <> [] /\ spread lines (codeOf i es)
  | _ => False
  end.

(** No item of a tight list is empty ([tight]: the block is in a tight list). *)
Inductive full : bool -> block -> Prop :=
| fu_list tight start loose l : Forall (full (negb loose)) l -> full tight (BList start loose l)
| fu_item tight l : (tight = true -> l <> []) -> Forall (full tight) l -> full tight (BItem l)
| fu_quote tight l : Forall (full false) l -> full tight (BQuote l)
| fu_heading tight level id l : full tight (BHeading level id l)
| fu_para tight l : full tight (BPara l)
| fu_code tight l : full tight (BCode l).
