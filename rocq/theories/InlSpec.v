(* Specification of generated files: the lines that say what was reflected. *)
From Coq Require Import String.
From Verif Require Import Base Txt InlModel.
Local Open Scope string_scope.
Local Open Scope list_scope.
Local Open Scope Z_scope.

(** Names of C++, qualified or not: no line end, comma or parenthesis. *)
Definition name_ok (s : list Z) : Prop := ~ In 10 s /\ ~ In 44 s /\ ~ In 41 s.
Inductive thing :=
| AClass (name : list Z) (members : list (list Z))
| AnEnum (prefix name : list Z) (ids : list (list Z))
| ASwitch (name : list Z) (states : list (list Z)) (reflected : bool).
Definition thing_ok (t : thing) : Prop :=
  match t with
  | AClass n ms => name_ok n /\ Forall name_ok ms
  | AnEnum p n is => name_ok p /\ name_ok n /\ Forall name_ok is
  | ASwitch n ss _ => name_ok n /\ Forall name_ok ss
  end.
Definition call (f : list Z) (x : list Z) : list Z := f ++ txt "(" ++ x ++ txt ")".
(** The lines for a thing. *)
Definition lines (t : thing) : list (list Z) :=
  match t with
  | AClass n ms => [call (txt "PLY_STRUCT_BEGIN") n] ++ map (call (txt "PLY_STRUCT_MEMBER")) ms ++ [txt "PLY_STRUCT_END()"; []]
  | AnEnum p n is => [call (txt "PLY_ENUM_BEGIN") (p ++ txt ", " ++ n)] ++ map (call (txt "PLY_ENUM_IDENTIFIER")) is ++ [txt "PLY_ENUM_END()"; []]
  | ASwitch n ss r =>
    [call (txt "SWITCH_TABLE_BEGIN") n] ++ map (fun s => call (txt "SWITCH_TABLE_STATE") (n ++ txt ", " ++ s)) ss ++ [call (txt "SWITCH_TABLE_END") n; []]
    ++ (if r then [call (txt "PLY_SWITCH_BEGIN") n] ++ map (call (txt "PLY_SWITCH_MEMBER")) ss ++ [txt "PLY_SWITCH_END()"; []] else [])
  end.
Definition textOf (ls : list (list Z)) : list Z := flat_map (fun l => l ++ [10]) ls.
(** What is to be in the file: a last [Count] is not an enumerator. *)
Definition ofClass (c : class) : thing := AClass (cName c) (members c).
Inductive ids : list (list Z) -> list (list Z) -> Prop :=
| ids_count l : ids (l ++ [txt "Count"]) l
| ids_all l : (forall l', l <> l' ++ [txt "Count"]) -> ids l l.
Definition ofSwitch (s : switch) : thing := ASwitch (sName s) (states s) (isReflected s).
