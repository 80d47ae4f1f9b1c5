(* How commands are written, and to which declarations they belong. *)
From Coq Require Import String.
From Verif Require Import Base Txt CommandModel.
Local Open Scope string_scope.
Local Open Scope list_scope.
Local Open Scope Z_scope.

(** White space. *)
Definition blank (w : list Z) : Prop := Forall (fun c => In c [32; 9; 10; 13]) w.
(** Names without quotes, backslashes and ends of lines. *)
Definition plainName (x : list Z) : Prop := x <> [] /\ Forall (fun c => 0 <= c < 256 /\ ~ In c [34; 92; 10; 13]) x.
Definition quote : list Z := [34].

Inductive written : list Z -> command -> Prop :=
| written_module a b c d e f x : blank a -> blank b -> b <> [] -> blank c -> blank d -> blank e -> blank f -> plainName x ->
    written (txt "//" ++ a ++ txt "[ply" ++ b ++ txt "module" ++ c ++ txt "=" ++ d ++ quote ++ x ++ quote ++ e ++ txt "]" ++ f) (Module x)
| written_extern a b c d e f g h i x y : blank a -> blank b -> b <> [] -> blank c -> blank d -> blank e -> blank f -> blank g -> blank h -> blank i ->
    plainName x -> plainName y ->
    written (txt "//" ++ a ++ txt "[ply" ++ b ++ txt "extern" ++ c ++ txt "=" ++ d ++ quote ++ x ++ quote ++ e ++ txt "provider" ++ f ++ txt "=" ++ g ++
             quote ++ y ++ quote ++ h ++ txt "]" ++ i) (Extern x y).

(** Neither a declaration nor a comment in brackets that begins with [ply]. *)
Definition quiet (e : event) : Prop :=
  match e with
  | Comment false _ _ => True
  | Comment true d tok => forall r, comment d tok <> Bracket r
  | Declared _ => False
  end.
(** The command of one event is the last thing before another event. *)
Definition leads (es : list event) (c : command) (e : event) : Prop :=
  exists pre d tok mid post, es = pre ++ Comment true d tok :: mid ++ e :: post /\ comment d tok = Bracket (inl c) /\ Forall quiet mid.

(** What a command may not lead to: another command, or a declaration that is not of one function. *)
Definition clash (e : event) : Prop :=
  match e with
  | Comment true d tok => exists r, comment d tok = Bracket r
  | Declared None => True
  | _ => False
  end.
(** Wrong by itself. *)
Definition wrong (e : event) : Prop :=
  match e with
  | Comment true d tok => comment d tok = Old \/ exists x, comment d tok = Bracket (inr x)
  | _ => False
  end.

(** A text occurs in another. *)
Definition infix (x s : list Z) : Prop := exists a b, s = a ++ x ++ b.
