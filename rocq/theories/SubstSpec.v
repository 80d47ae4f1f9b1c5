(* Specification of substitutions, without positions: a file is in pieces. *)
From Coq Require Import String.
From Verif Require Import Base Txt SubstModel.
Local Open Scope string_scope.
Local Open Scope list_scope.
Local Open Scope Z_scope.
Local Notation length := List.length.

(** A part that stays, a part that goes, and what comes instead. *)
Record piece := Piece { kept : list Z; gone : list Z; new : list Z }.
Definition before (ps : list piece) (rest : list Z) : list Z := flat_map (fun p => kept p ++ gone p) ps ++ rest.
Definition after (ps : list piece) (rest : list Z) : list Z := flat_map (fun p => kept p ++ new p) ps ++ rest.
(** The substitutions, when the first piece is at [off]. *)
Fixpoint ranges (off : nat) (ps : list piece) : list subst :=
  match ps with
  | [] => []
  | p :: r => let a := (off + length (kept p))%nat in
              Subst a (length (gone p)) (new p) :: ranges (a + length (gone p)) r
  end.

(** Lines of a source file, without their ends. *)
Definition blanks (s : list Z) : Prop := Forall (fun c => c = 32 \/ c = 9 \/ c = 13) s.
Definition oneLine (s : list Z) : Prop := ~ In 10 s.
(** What a line starts after: nothing, or an end of line. *)
Definition fresh (a : list Z) : Prop := a = [] \/ exists b, a = b ++ [10].
Inductive line :=
| Plain (s : list Z)                  (* anything that is not an include *)
| Own (indent s : list Z)             (* an include by someone *)
| Generated (indent s w : list Z).    (* an include that was generated: what is before the mark, and after it *)
Definition text (l : line) : list Z :=
  match l with
  | Plain s => s
  | Own i s => i ++ [35] ++ s
  | Generated i s w => i ++ [35] ++ s ++ txt "//@@ply" ++ w
  end.
(** The mark ends the line, or it does not, blanks aside. *)
Definition line_ok (l : line) : Prop :=
  oneLine (text l) /\
  match l with
  | Plain _ => True
  | Own i s => forall a w, [35] ++ s = a ++ txt "//@@ply" ++ w -> ~ blanks w
  | Generated i s w => blanks w
  end.
Definition file (ls : list line) : list Z := flat_map (fun l => text l ++ [10]) ls.
Definition isGenerated (l : line) : bool := match l with Generated _ _ _ => true | _ => false end.
(** The includes in a file. *)
Fixpoint includes (off : nat) (ls : list line) : list found :=
  match ls with
  | [] => []
  | l :: r =>
    match l with Plain _ => [] | Own i _ => [Include (off + length i)] | Generated i _ _ => [Include (off + length i)] end
    ++ includes (off + length (text l) + 1) r
  end.

(** A file with switches: for each, the lines before it (after the switch before), the directive of the last time if
    there is one, what is before the brace in its line, and the name of its generated file. *)
Record segment := Segment { lead : list Z; old : option (list Z * list Z * list Z); pad : list Z; genName : list Z }.
Definition oldText (s : segment) : list Z :=
  match old s with Some (i, o, v) => i ++ [35] ++ o ++ txt "//@@ply" ++ v ++ [10] | None => [] end.
Definition segment_ok (s : segment) : Prop :=
  (exists b, lead s = b ++ [10]) /\ blanks (pad s) /\
  match old s with Some (i, o, v) => oneLine (i ++ [35] ++ o ++ txt "//@@ply" ++ v) /\ blanks v | None => True end.
Definition segText (s : segment) : list Z := lead s ++ oldText s ++ pad s ++ [125].
Definition segNew (s : segment) : list Z := lead s ++ switchDirective (genName s) ++ pad s ++ [125].
(** What the parser finds. *)
Fixpoint founds (off : nat) (ss : list segment) : list found :=
  match ss with
  | [] => []
  | s :: r =>
    match old s with Some (i, _, _) => [Include (off + length (lead s) + length i)] | None => [] end
    ++ [Switch (off + length (lead s ++ oldText s) + length (pad s)) (genName s)]
    ++ founds (off + length (segText s)) r
  end.
(** The next time, when the directive is there. *)
Definition next (s : segment) : segment :=
  Segment (lead s) (Some ([], txt "include " ++ [34] ++ txt "codegen/" ++ genName s ++ [34; 32], [])) (pad s) (genName s).
