(* Model of the substitutions by which generated directives get into source files.
   repos/plywood/src/apps/plytool/plytool/Command_CodeGen.cpp:64-82 and
   repos/plywood/src/apps/plytool/plytool/ReflectionHooks.cpp:23-52, 252-268.
   Simplified: positions are natural numbers, for files of less than 2^32 bytes; pointers into the file are
   positions in it; a failed assertion is [None]. *)
From Coq Require Import String.
From Verif Require Export Base StringViewModel.
From Verif Require Import Txt.
Local Open Scope string_scope.
Local Open Scope list_scope.
Local Open Scope Z_scope.
Local Notation length := List.length.

(** ReflectionHooks.h:16-19. *)
Record subst := Subst { start : nat; numBytes : nat; replacement : list Z }.
(** [StringView{src.bytes + pos, num}]. *)
Definition view (src : list Z) (pos num : nat) : list Z := firstn num (skipn pos src).

(** Command_CodeGen.cpp:71-79: the loop, and the rest of the file. *)
Fixpoint substLoop (src : list Z) (prevEndPos : nat) (substs : list subst) : option (list Z) :=
  match substs with
  | [] => Some (view src prevEndPos (length src - prevEndPos))
  | s :: r =>
    if (start s <? prevEndPos)%nat then None
    else let endPos := (start s + numBytes s)%nat in
         if (endPos <? length src)%nat
         then option_map (fun t => view src prevEndPos (start s - prevEndPos) ++ replacement s ++ t) (substLoop src endPos r)
         else None
  end.
(** Command_CodeGen.cpp:64-82, for a file that can be loaded. *)
Definition performSubsts (src : list Z) (substs : list subst) : option (list Z) := substLoop src 0 substs.

(** ReflectionHooks.cpp:261-264: back to the start of the line. *)
Fixpoint startOfLine (src : list Z) (pos : nat) : nat :=
  match pos with
  | O => O
  | S p => if nth p src 0 =? 10 then pos else startOfLine src p
  end.
(** cpp/ply-cpp/Preprocessor.cpp:144-171: a directive goes from the number sign to the end of its line, with the
    end of line. *)
Fixpoint lineLength (s : list Z) : nat :=
  match s with
  | [] => O
  | c :: r => if c =? 10 then 1%nat else S (lineLength r)
  end.
(** ReflectionHooks.cpp:252-268, called with the directive whose number sign is at [pos]. *)
Definition onGotInclude (src : list Z) (pos : nat) : list subst :=
  let num := lineLength (skipn pos src) in
  if sv_endsWith (sv_trim isWhite false true (view src pos num)) (txt "//@@ply")
  then [Subst (startOfLine src pos) (pos + num - startOfLine src pos) []]
  else [].

(** ReflectionHooks.cpp:32-42: from the last character that is not white back to the start of its line; what is
    returned is the start of the line and the first character in it that is not white. *)
Fixpoint indentation (src : list Z) (lineStart firstNonWhite : nat) : nat * nat :=
  match lineStart with
  | O => (O, firstNonWhite)
  | S p =>
    let c := nth p src 0 in
    if c =? 10 then (lineStart, firstNonWhite)
    else indentation src p (if isWhite c then firstNonWhite else p)
  end.
(** ReflectionHooks.cpp:26-49. *)
Fixpoint insertLoop (src : list Z) (insertPos : nat) (rep : list Z) : subst :=
  match insertPos with
  | O => Subst O O rep
  | S p =>
    let c := nth p src 0 in
    if c =? 10 then Subst insertPos O rep
    else if negb (isWhite c) then
      let '(lineStart, firstNonWhite) := indentation src p p in
      Subst insertPos O (10 :: rep ++ view src lineStart (firstNonWhite - lineStart))
    else insertLoop src p rep
  end.
(** ReflectionHooks.cpp:23-52. *)
Definition insertDirectiveSubst (src : list Z) (marker : nat) (rep : list Z) : subst := insertLoop src marker rep.
(** ReflectionHooks.cpp:219-221: the directive for a switch. *)
Definition switchDirective (name : list Z) : list Z :=
  txt "#include " ++ [34] ++ txt "codegen/" ++ name ++ [34] ++ txt " //@@ply" ++ [10].

(** What the parser of a file finds, in the order of the file: an [#include], at its number sign, or the closing
    brace of a switch, with the name of its generated file. *)
Inductive found := Include (pos : nat) | Switch (closeCurly : nat) (genFileName : list Z).
(** ReflectionHooks.cpp:219-221, 265. *)
Definition substsOf (src : list Z) (f : found) : list subst :=
  match f with
  | Include pos => onGotInclude src pos
  | Switch pos name => [insertDirectiveSubst src pos (switchDirective name)]
  end.
(** Command_CodeGen.cpp:246-254: one file; what is written. *)
Definition codegen (src : list Z) (fs : list found) : option (list Z) :=
  performSubsts src (flat_map (substsOf src) fs).
