(* Model of the commands in comments by which module functions are registered.
   repos/plywood/src/build/repo/ply-build-repo/ExtractModuleFunctions.cpp:104-309.
   Simplified: the parser of C++ is a sequence of events; errors have no locations; the functions of modules and
   of externs, which the code appends to two arrays, are in one list. *)
From Coq Require Import String.
From Verif Require Export Base ScanModel EscapeModel StringViewModel.
From Verif Require Import Txt TitleModel.
Local Open Scope string_scope.
Local Open Scope list_scope.
Local Open Scope Z_scope.
Local Notation length := List.length.

(** ExtractModuleFunctions.cpp:105-118. *)
Inductive command := Module (name : list Z) | Extern (name provider : list Z).
(** ExtractModuleFunctions.cpp:20-34. *)
Inductive regError :=
| AlreadyInsideCommand | ExpectedModuleName | MustBeAtFileScope | ExpectedExternName | ExpectedProviderKeyword
| ExpectedProviderName | UnrecognizedCommand | CouldNotApplyCommand | ExpectedEqualSign | ExtraneousText | OldCommandFormat.

(** [parse<fmt::Whitespace>]. *)
Definition white (ins : list Z) : list Z := scanUsingMask ins WhitespaceMask false.
(** [readView<fmt::NonWhitespace>], the view. *)
Definition nonWhite (ins : list Z) : list Z := firstn (length ins - length (scanUsingMask ins WhitespaceMask true)) ins.
(** ExtractModuleFunctions.cpp:163-171 and others: white space, an equal sign, white space. *)
Definition readEq (ins : list Z) : option (list Z) :=
  match white ins with 61 :: r => Some (white r) | _ => None end.
(** The text of [parse<fmt::QuotedString>], and the rest; its errors are not looked at. *)
Definition readQuote (ins : list Z) : list Z * list Z := let '(t, r, _) := parse_quoted ins false in (t, r).

(** ExtractModuleFunctions.cpp:156-188: what follows [module]. *)
Definition readModule (depth : nat) (ins : list Z) : command + regError :=
  if negb (Nat.eqb depth 1) then inr MustBeAtFileScope
  else match readEq ins with
       | None => inr ExpectedEqualSign
       | Some r =>
         let '(name, r) := readQuote r in
         match name with
         | [] => inr ExpectedModuleName
         | _ => match white r with [] => inl (Module name) | _ => inr ExtraneousText end
         end
       end.
(** ExtractModuleFunctions.cpp:194-249: what follows [extern]. *)
Definition readExtern (depth : nat) (ins : list Z) : command + regError :=
  if negb (Nat.eqb depth 1) then inr MustBeAtFileScope
  else match readEq ins with
       | None => inr ExpectedEqualSign
       | Some r =>
         let '(name, r) := readQuote r in
         match name with
         | [] => inr ExpectedExternName
         | _ =>
           let '(third, r) := readIdentifier (white r) in
           if negb (sameText third (txt "provider")) then inr ExpectedProviderKeyword
           else match readEq r with
                | None => inr ExpectedEqualSign
                | Some r =>
                  let '(provider, r) := readQuote r in
                  match provider with
                  | [] => inr ExpectedProviderName
                  | _ => match white r with [] => inl (Extern name provider) | _ => inr ExtraneousText end
                  end
                end
         end
       end.

(** What a comment is: nothing, the old format, or a command or an error in the new one. *)
Inductive seen := Nothing | Old | Bracket (r : command + regError).
(** ExtractModuleFunctions.cpp:139-266: a line comment with its two slashes. *)
Definition comment (depth : nat) (tok : list Z) : seen :=
  let text := sv_trim isWhite true true (skipn 2 tok) in
  if sv_startsWith text (txt "[") && sv_endsWith text (txt "]") then
    let '(first, r) := readIdentifier (firstn (length text - 2) (skipn 1 text)) in
    if negb (sameText first (txt "ply")) then Nothing                                             (* :144-145 *)
    else let '(second, r) := readIdentifier (white r) in
         if sameText second (txt "module") then Bracket (readModule depth r)
         else if sameText second (txt "extern") then Bracket (readExtern depth r)
         else Bracket (inr UnrecognizedCommand)                                                   (* :250-254 *)
  else if sameText (nonWhite text) (txt "ply") then Old else Nothing.                             (* :258-266 *)

(** What the parser tells: a line comment, with [atDeclarationScope] and [scopeStack.numItems()], or a declaration:
    [Some f] if it is simple and declares one thing, which is the function [f]. *)
Inductive event := Comment (atDecl : bool) (depth : nat) (tok : list Z) | Declared (f : option (list Z)).
Record hooks := mkHooks { pending : option command; registered : list (command * list Z); errors : list regError }.

(** ExtractModuleFunctions.cpp:136-306: [gotMacroOrComment] and [onGotDeclaration]. *)
Definition step (h : hooks) (e : event) : hooks :=
  match e with
  | Comment false _ _ => h
  | Comment true depth tok =>
    match comment depth tok with
    | Nothing => h
    | Old => mkHooks (pending h) (registered h) (errors h ++ [OldCommandFormat])
    | Bracket r =>
      let es := match pending h with Some _ => [AlreadyInsideCommand] | None => [] end in         (* :147-152 *)
      match r with
      | inl c => mkHooks (Some c) (registered h) (errors h ++ es)
      | inr x => mkHooks None (registered h) (errors h ++ es ++ [x])
      end
    end
  | Declared f =>
    match pending h with
    | None => h
    | Some c =>
      match f with
      | Some f => mkHooks None (registered h ++ [(c, f)]) (errors h)
      | None => mkHooks None (registered h) (errors h ++ [CouldNotApplyCommand])                  (* :300-304 *)
      end
    end
  end.
(** ExtractModuleFunctions.cpp:318-326 [extractInstantiatorFunctions]: success is the absence of errors. *)
Definition extract (es : list event) : hooks := fold_left step es (mkHooks None [] []).
Definition succeeds (es : list event) : bool := match errors (extract es) with [] => true | _ => false end.
