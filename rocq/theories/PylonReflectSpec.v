(* Which objects can be saved as Pylon, and which objects are of a type. *)
From Verif Require Import PersistModel.
From Verif Require Export Base PylonReflectModel PylonSpec.
Local Notation length := List.length.

Section Spec.
Variable env : list tdesc.

(** [savable t o]: the object o of type t can be saved. Numbers other than bool, raw pointers, fixed arrays and enum-indexed
    arrays cannot be. The members of a struct, the identifiers of an enum and the states of a switch have distinct names. An
    enum has one of the values of its identifiers (several identifiers may have the same value). An Owned pointer is not null
    and owns something with a name: a struct or a switch, a string or a bool. *)
Inductive savable : tptr -> obj -> Prop :=
| sv_string s : savable PString (OStr s)
| sv_bool b : savable (PNum Kbool) (ONum (if b : bool then 1 else 0))
| sv_struct i name params ms l : nth_error env i = Some (TStruct name params ms) -> NoDup (map fst ms) ->
    savable_all (map snd ms) l -> savable (PUser i) (OSeq l)
| sv_array i item l : nth_error env i = Some (TArray item) -> savable_all (repeat item (length l)) l -> savable (PUser i) (OArr l)
| sv_enum i name bytes ids id v : nth_error env i = Some (TEnum name bytes ids) -> In bytes [1; 2; 4] -> NoDup (map fst ids) ->
    In (id, v) ids -> 0 <= v < 2 ^ (8 * bytes) -> savable (PUser i) (ONum v)
| sv_switch i name states id state k o : nth_error env i = Some (TSwitch name states) -> NoDup (map fst states) ->
    nth_error states id = Some (state, k) -> savable (PUser k) o -> savable (PUser i) (OSwitch id o)
| sv_owned i target o : nth_error env i = Some (TOwned target) ->
    (forall j, target = PUser j -> exists d, nth_error env j = Some d /\ match d with TStruct _ _ _ | TSwitch _ _ => True | _ => False end) ->
    savable target o -> savable (PUser i) (OOwn o)
with savable_all : list tptr -> list obj -> Prop :=
| sv_nil : savable_all [] []
| sv_cons t o ts l : savable t o -> savable_all ts l -> savable_all (t :: ts) (o :: l).

(** [fits t o]: o is some object of type t, maybe with parts that have no value yet. *)
Inductive fits : tptr -> obj -> Prop :=
| ft_unset t : match t with PUser i => exists name bytes ids, nth_error env i = Some (TEnum name bytes ids) | PNum _ => True | PString => False end -> fits t OUnset
| ft_num k z : fits (PNum k) (ONum z)
| ft_string s : fits PString (OStr s)
| ft_struct i name params ms l : nth_error env i = Some (TStruct name params ms) -> Forall2 fits (map snd ms) l -> fits (PUser i) (OSeq l)
| ft_fixed i n item l : nth_error env i = Some (TFixed n item) -> zlen l = n -> Forall (fits item) l -> fits (PUser i) (OSeq l)
| ft_array i item l : nth_error env i = Some (TArray item) -> Forall (fits item) l -> fits (PUser i) (OArr l)
| ft_enum i name bytes ids z : nth_error env i = Some (TEnum name bytes ids) -> fits (PUser i) (ONum z)
| ft_enumarray i item e name bytes ids l : nth_error env i = Some (TEnumArray item e) -> nth_error env e = Some (TEnum name bytes ids) ->
    length l = length ids -> Forall (fits item) l -> fits (PUser i) (OSeq l)
| ft_switch i name states id state k o : nth_error env i = Some (TSwitch name states) -> nth_error states id = Some (state, k) ->
    fits (PUser k) o -> fits (PUser i) (OSwitch id o)
| ft_owned i target o : nth_error env i = Some (TOwned target) -> fits target o -> fits (PUser i) (OOwn o)
| ft_null i target : nth_error env i = Some (TOwned target) -> fits (PUser i) ONull
| ft_raw i target : nth_error env i = Some (TRaw target) -> fits (PUser i) ONull.

(** A constructor of a type that has objects makes one of them. *)
Definition constructors_ok (fresh : tptr -> obj) : Prop := forall t o, fits t o -> fits t (fresh t).

(** The types that a type refers to. *)
Definition refers (d : tdesc) (t : tptr) : Prop :=
  match d with
  | TFixed _ x | TArray x | TOwned x | TRaw x => t = x
  | TStruct _ _ ms => In t (map snd ms)
  | TEnum _ _ _ => False
  | TEnumArray x e => t = x \/ t = PUser e
  | TSwitch _ states => exists state k, In (state, k) states /\ t = PUser k
  end.
Definition known (t : tptr) : Prop := match t with PUser i => (i < length env)%nat | _ => True end.
Definition types_ok : Prop := forall i d t, nth_error env i = Some d -> refers d t -> known t.
(** The constructors of all types make objects of these types. *)
Definition all_constructed (fresh : tptr -> obj) : Prop := forall t, known t -> fits t (fresh t).

(** All texts in the object, and all names in its types, survive being written and read (C37); no struct has more than 64
    members. *)
Inductive texts_ok : tptr -> obj -> Prop :=
| tx_string s : text_ok s -> texts_ok PString (OStr s)
| tx_num k z : texts_ok (PNum k) (ONum z)
| tx_struct i name params ms l : nth_error env i = Some (TStruct name params ms) -> Forall text_ok (map fst ms) -> (length ms <= 64)%nat ->
    Forall2 texts_ok (map snd ms) l -> texts_ok (PUser i) (OSeq l)
| tx_array i item l : nth_error env i = Some (TArray item) -> Forall (texts_ok item) l -> texts_ok (PUser i) (OArr l)
| tx_enum i name bytes ids v : nth_error env i = Some (TEnum name bytes ids) -> Forall text_ok (map fst ids) -> texts_ok (PUser i) (ONum v)
| tx_switch i name states id state k o : nth_error env i = Some (TSwitch name states) -> nth_error states id = Some (state, k) ->
    text_ok state -> texts_ok (PUser k) o -> texts_ok (PUser i) (OSwitch id o)
| tx_owned i target o : nth_error env i = Some (TOwned target) -> texts_ok target o -> texts_ok (PUser i) (OOwn o).
End Spec.
