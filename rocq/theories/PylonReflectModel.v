(* Model of exporting objects to Pylon and importing them (pylon-reflect). PR is repos/plywood/src/pylon/reflect/pylon-reflect,
   PY is repos/plywood/src/pylon/pylon/pylon, RF is repos/plywood/src/reflect/ply-reflect. The types are those of PersistModel.v.
   Not modelled: AnySavedObject and TypedArray, which build types from Pylon (Import.cpp:13-100,209-227). *)
From Verif Require Import PersistModel.
From Verif Require Export Base PylonModel.
Local Notation length := List.length.

(** An object in memory. [OSeq]: the members of a struct, or the items of a fixed array or an enum-indexed array. [OUnset]:
    what a constructor left without a value. Addresses are left out. *)
Inductive obj :=
| ONum (z : Z)
| OUnset
| OStr (s : list Z)
| OSeq (l : list obj)
| OArr (l : list obj)
| OOwn (o : obj)
| ONull
| OSwitch (id : nat) (o : obj).

(** [Fails]: a failed assertion, or a read through a null pointer. [Deep]: the fuel of the model is used up. *)
Inductive ires (A : Type) := Got (a : A) | Fails | Deep.
Arguments Got {A} a.
Arguments Fails {A}.
Arguments Deep {A}.

Section Types.
(** The TypeDescriptors, by number. *)
Variable env : list tdesc.

(** PY/Node.cpp:150-162 [Node::set] on an object, as a list of its items (C39 has the hash map behind it). *)
Fixpoint setItem (k : list Z) (v : node) (l : list (list Z * node)) : list (list Z * node) :=
  match l with
  | [] => [(k, v)]
  | (k', v') :: l => if list_eqb k' k then (k', v) :: l else (k', v') :: setItem k v l
  end.
(** PY/Node.cpp:139-148 [Node::get]; [None] is the invalid node. *)
Fixpoint getItem (k : list Z) (l : list (list Z * node)) : option node :=
  match l with
  | [] => None
  | (k', v) :: l => if list_eqb k' k then Some v else getItem k l
  end.

(** RF/builtin/TypeDescriptor_Enum.h:42-48 [findValue]. *)
Definition findValue (ids : list (list Z * Z)) (v : Z) : option (list Z) :=
  option_map fst (find (fun x => snd x =? v) ids).
(** Export.cpp:53-61, Import.cpp:192-202: the sizes of enums. *)
Definition enumSize (bytes : Z) : bool := (bytes =? 1) || (bytes =? 2) || (bytes =? 4).

Definition txtTrue : list Z := [116; 114; 117; 101].
Definition txtFalse : list Z := [102; 97; 108; 115; 101].

Section Export.
(** Export.h:11: the filter; it returns null for objects it leaves alone. *)
Variable filter : tptr -> obj -> option node.
(** Export.cpp:10-71 [exportObj]. [None]: a failed assertion or a null pointer read. *)
Fixpoint exportObj (t : tptr) (o : obj) {struct o} : option node :=
  match filter t o with
  | Some n => Some n
  | None =>
    match t, o with
    | PString, OStr s => Some (Text s)
    | PNum Kbool, ONum z => Some (Text (if z =? 0 then txtFalse else txtTrue))
    | PUser i, _ =>
      match nth_error env i, o with
      | Some (TStruct _ _ members), OSeq l =>
        (fix go (ms : list (list Z * tptr)) (l : list obj) (acc : list (list Z * node)) {struct l} : option node :=
           match ms, l with
           | [], [] => Some (Object acc)
           | (name, t) :: ms, o :: l =>
             match exportObj t o with Some n => go ms l (setItem name n acc) | None => None end
           | _, _ => None
           end) members l []
      | Some (TArray item), OArr l =>
        (fix go (l : list obj) (acc : list node) {struct l} : option node :=
           match l with
           | [] => Some (Array acc)
           | o :: l => match exportObj item o with Some n => go l (acc ++ [n]) | None => None end
           end) l []
      | Some (TSwitch _ states), OSwitch id o =>
        match nth_error states id with
        | Some (name, k) => match exportObj (PUser k) o with Some n => Some (Object [(name, n)]) | None => None end
        | None => None
        end
      | Some (TEnum _ bytes ids), ONum v =>
        if enumSize bytes then match findValue ids v with Some name => Some (Text name) | None => None end else None
      | Some (TOwned target), OOwn o => exportObj target o
      | _, _ => None
      end
    | _, _ => None
    end
  end.
End Export.
(** Export.h:12: no filter. *)
Definition noFilter (t : tptr) (o : obj) : option node := None.

Section Import.
(** (T) of Node::numeric (PY/Node.cpp:129-137) for a number type T; [None] if the text is no number or if the conversion is
    undefined. Any function will do here. *)
Variable number : num -> list Z -> option Z.
(** What the constructor of a type makes (RF/builtin: the functions create and construct). Any function will do here. *)
Variable fresh : tptr -> obj.

(** RF/builtin/TypeDescriptor_{Array,Enum,EnumIndexedArray,FixedArray,Owned,RawPtr}.cpp: create is not supported. *)
Definition creatable (t : tptr) : bool :=
  match t with
  | PUser i => match nth_error env i with Some (TStruct _ _ _) | Some (TSwitch _ _) => true | _ => false end
  | _ => true
  end.

(** Import.cpp:186-208: the value of the first identifier with the name. *)
Definition enumValue (bytes : Z) (ids : list (list Z * Z)) (name : list Z) : ires obj :=
  match find (fun x => list_eqb (fst x) name) ids with
  | Some (_, v) =>
    if bytes =? 1 then if v <=? 255 then Got (ONum v) else Fails
    else if bytes =? 2 then if v <=? 65535 then Got (ONum v) else Fails
    else if bytes =? 4 then Got (ONum v) else Fails
  | None => Fails
  end.
(** Import.cpp:235-244: the first state with the name. *)
Fixpoint stateOf (i : nat) (states : list (list Z * nat)) (name : list Z) : option (nat * nat) :=
  match states with
  | [] => None
  | (name', k) :: states => if list_eqb name' name then Some (i, k) else stateOf (S i) states name
  end.

(** Import.cpp:112-118, 177-185: the members that the node has are converted, the others are left as they are. *)
Fixpoint members (conv : tptr -> obj -> node -> ires obj) (ms : list (list Z * tptr)) (l : list obj) (items : list (list Z * node)) : ires (list obj) :=
  match ms, l with
  | [], [] => Got []
  | (name, t) :: ms, o :: l =>
    match match getItem name items with Some n => conv t o n | None => Got o end with
    | Got o' => match members conv ms l items with Got l' => Got (o' :: l') | Fails => Fails | Deep => Deep end
    | Fails => Fails
    | Deep => Deep
    end
  | _, _ => Fails
  end.
(** Import.cpp:163-173: the old items that are kept, then constructed ones, and all of them are converted. *)
Fixpoint items (conv : obj -> node -> ires obj) (new : obj) (l : list obj) (ns : list node) : ires (list obj) :=
  match ns with
  | [] => Got []
  | n :: ns =>
    match conv (match l with o :: _ => o | [] => new end) n with
    | Got o' => match items conv new (tl l) ns with Got l' => Got (o' :: l') | Fails => Fails | Deep => Deep end
    | Fails => Fails
    | Deep => Deep
    end
  end.
(** Import.cpp:145-148: every item of a fixed array must have a node; further nodes are ignored. *)
Fixpoint fixedItems (conv : obj -> node -> ires obj) (l : list obj) (ns : list node) : ires (list obj) :=
  match l, ns with
  | [], _ => Got []
  | o :: l, n :: ns =>
    match conv o n with
    | Got o' => match fixedItems conv l ns with Got l' => Got (o' :: l') | Fails => Fails | Deep => Deep end
    | Fails => Fails
    | Deep => Deep
    end
  | _ :: _, [] => Fails
  end.

(** Import.cpp:102-255 [convertFrom] onto an object. The object that an Owned pointer held before is forgotten, not destroyed
    (:247-251). *)
Fixpoint convertFrom (fuel : nat) (t : tptr) (o : obj) (n : node) {struct fuel} : ires obj :=
  match fuel with
  | O => Deep
  | S f =>
    match t with
    | PString => match n with Text s => Got (OStr s) | _ => Got o end
    | PNum Kbool => Got (ONum (match n with Text s => if list_eqb s txtTrue then 1 else 0 | _ => 0 end))
    | PNum ((Kfloat | KU8 | KU16 | KU32 | KS32) as k) =>
      match n with Text s => match number k s with Some z => Got (ONum z) | None => Fails end | _ => Fails end
    | PNum _ => Fails
    | PUser i =>
      match nth_error env i with
      | Some (TStruct _ _ ms) =>
        match n, o with
        | Object its, OSeq l => match members (convertFrom f) ms l its with Got l' => Got (OSeq l') | Fails => Fails | Deep => Deep end
        | _, _ => Fails
        end
      | Some (TFixed _ item) =>
        match n, o with
        | Array ns, OSeq l => match fixedItems (convertFrom f item) l ns with Got l' => Got (OSeq l') | Fails => Fails | Deep => Deep end
        | _, _ => Fails
        end
      | Some (TArray item) =>
        match n, o with
        | Array ns, OArr l => match items (convertFrom f item) (fresh item) l ns with Got l' => Got (OArr l') | Fails => Fails | Deep => Deep end
        | _, _ => Fails
        end
      | Some (TEnumArray item e) =>
        match nth_error env e, n, o with
        | Some (TEnum _ _ ids), Object its, OSeq l =>
          match members (convertFrom f) (map (fun x => (fst x, item)) ids) l its with Got l' => Got (OSeq l') | Fails => Fails | Deep => Deep end
        | _, _, _ => Fails
        end
      | Some (TEnum _ bytes ids) => match n with Text s => enumValue bytes ids s | _ => Fails end
      | Some (TSwitch _ states) =>
        match n, o with
        | Object [(name, m)], OSwitch id old =>
          match stateOf 0 states name with
          | Some (id', k) =>
            (* RF/builtin/TypeDescriptor_Switch.h:38-47 [ensureStateIs] *)
            match convertFrom f (PUser k) (if (id =? id')%nat then old else fresh (PUser k)) m with
            | Got o' => Got (OSwitch id' o')
            | Fails => Fails
            | Deep => Deep
            end
          | None => Fails
          end
        | _, _ => Fails
        end
      | Some (TOwned target) =>
        if creatable target then
          match convertFrom f target (fresh target) n with Got o' => Got (OOwn o') | Fails => Fails | Deep => Deep end
        else Fails
      | Some (TRaw _) | None => Fails
      end
    end
  end.

(** Import.cpp:257-262 [import]. *)
Definition import (fuel : nat) (t : tptr) (n : node) : ires obj :=
  if creatable t then convertFrom fuel t (fresh t) n else Fails.
End Import.
End Types.
