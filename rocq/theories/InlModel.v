(* Model of the files that are generated for reflected classes, enumerations and switches.
   repos/plywood/src/apps/plytool/plytool/Command_CodeGen.cpp:24-50, 100-198.
   Simplified: the hash map of files is a list in the order of insertion; that paths end in .inl is not looked at;
   saving is not modelled (see C63). *)
From Coq Require Import String.
From Verif Require Export Base StringViewModel.
From Verif Require Import Txt.
Local Open Scope string_scope.
Local Open Scope list_scope.
Local Open Scope Z_scope.
Local Notation length := List.length.

(** ReflectionHooks.h: ReflectedClass, ReflectedEnum, SwitchInfo. *)
Record class := Class { cInl : list Z; cName : list Z; members : list (list Z) }.
Record enumeration := Enum { eInl : list Z; prefix : list Z; eName : list Z; enumerators : list (list Z) }.
Record switch := Switch { sInl : list Z; sName : list Z; states : list (list Z); isReflected : bool }.

Definition nl : list Z := [10].
(** Command_CodeGen.cpp:126-132. *)
Definition writeClass (c : class) : list Z :=
  txt "PLY_STRUCT_BEGIN(" ++ cName c ++ txt ")" ++ nl
  ++ flat_map (fun m => txt "PLY_STRUCT_MEMBER(" ++ m ++ txt ")" ++ nl) (members c)
  ++ txt "PLY_STRUCT_END()" ++ nl ++ nl.
(** Command_CodeGen.cpp:146-151: all but a last [Count]. *)
Fixpoint writeEnumerators (l : list (list Z)) : list Z :=
  match l with
  | [] => []
  | e :: r =>
    (match r with
     | [] => if bytes_eqb e (txt "Count") then [] else txt "PLY_ENUM_IDENTIFIER(" ++ e ++ txt ")" ++ nl
     | _ => txt "PLY_ENUM_IDENTIFIER(" ++ e ++ txt ")" ++ nl
     end) ++ writeEnumerators r
  end.
(** Command_CodeGen.cpp:143-153. *)
Definition writeEnum (e : enumeration) : list Z :=
  txt "PLY_ENUM_BEGIN(" ++ prefix e ++ txt ", " ++ eName e ++ txt ")" ++ nl
  ++ writeEnumerators (enumerators e) ++ txt "PLY_ENUM_END()" ++ nl ++ nl.
(** Command_CodeGen.cpp:164-178. *)
Definition writeSwitch (s : switch) : list Z :=
  txt "SWITCH_TABLE_BEGIN(" ++ sName s ++ txt ")" ++ nl
  ++ flat_map (fun st => txt "SWITCH_TABLE_STATE(" ++ sName s ++ txt ", " ++ st ++ txt ")" ++ nl) (states s)
  ++ txt "SWITCH_TABLE_END(" ++ sName s ++ txt ")" ++ nl ++ nl
  ++ (if isReflected s then
        txt "PLY_SWITCH_BEGIN(" ++ sName s ++ txt ")" ++ nl
        ++ flat_map (fun st => txt "PLY_SWITCH_MEMBER(" ++ st ++ txt ")" ++ nl) (states s)
        ++ txt "PLY_SWITCH_END()" ++ nl ++ nl
      else []).

(** [insertOrFind], and the source appended. *)
Fixpoint addTo (files : list (list Z * list Z)) (path source : list Z) : list (list Z * list Z) :=
  match files with
  | [] => [(path, source)]
  | (p, t) :: r => if bytes_eqb p path then (p, t ++ source) :: r else (p, t) :: addTo r path source
  end.
(** Command_CodeGen.cpp:100-198: the files, with their contents. *)
Definition generateAll (cs : list class) (es : list enumeration) (ss : list switch) : list (list Z * list Z) :=
  let files := fold_left (fun f c => addTo f (cInl c) (writeClass c)) cs [] in
  let files := fold_left (fun f e => addTo f (eInl e) (writeEnum e)) es files in
  fold_left (fun f s => addTo f (sInl s) (writeSwitch s)) ss files.

(** Command_CodeGen.cpp:33, 43-44: the member for a state, which is the state with a small first letter. *)
Definition memberName (st : list Z) : list Z := sv_lowerAsc (firstn 1 st) ++ skipn 1 st.
(** [splitByte(':').back()]: what follows the last colon. *)
Fixpoint lastPart (s acc : list Z) : list Z :=
  match s with [] => acc | c :: r => if c =? 58 then lastPart r [] else lastPart r (acc ++ [c]) end.
(** Command_CodeGen.cpp:24-50. [None] when the first of no states is taken. *)
Definition getSwitchInl (s : switch) : option (list Z) :=
  match states s with
  | [] => None
  | first :: _ => Some (
      txt "enum class ID : u16 {" ++ nl
      ++ flat_map (fun st => txt "    " ++ st ++ txt "," ++ nl) (states s)
      ++ txt "    Count," ++ nl ++ txt "};" ++ nl ++ txt "union Storage_ {" ++ nl
      ++ flat_map (fun st => txt "    " ++ st ++ txt " " ++ memberName st ++ txt ";" ++ nl) (states s)
      ++ txt "    PLY_INLINE Storage_() {}" ++ nl ++ txt "    PLY_INLINE ~Storage_() {}" ++ nl ++ txt "};" ++ nl
      ++ txt "SWITCH_FOOTER(" ++ lastPart (sName s) [] ++ txt ", " ++ first ++ txt ")" ++ nl
      ++ flat_map (fun st => txt "SWITCH_ACCESSOR(" ++ st ++ txt ", " ++ memberName st ++ txt ")" ++ nl) (states s)
      ++ (if isReflected s then txt "PLY_SWITCH_REFLECT()" ++ nl else []))
  end.
