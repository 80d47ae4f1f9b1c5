(* What it means that a saved object is loaded again. *)
From Verif Require Export PersistModel.
Local Notation length := List.length.
Local Notation "'do' x <- a ; b" := (match a with Some x => b | None => None end) (at level 200, x pattern, a at level 100, b at level 200).

(** Signalling NaNs: they become quiet when they are converted. *)
Definition signalling (k : num) (z : Z) : Prop :=
  match k with
  | Kfloat => z / 2 ^ 23 mod 2 ^ 8 = 255 /\ 0 < z mod 2 ^ 23 < 2 ^ 22
  | _ => False
  end.
(** The numbers of each kind. A bool is 0 or 1; a float or double is given by its bits. *)
Definition numOk (k : num) (z : Z) : Prop :=
  ~ signalling k z /\
  match k with
  | Kbool => z = 0 \/ z = 1
  | _ => if isSigned k then - 2 ^ (8 * Z.of_nat (size k) - 1) <= z < 2 ^ (8 * Z.of_nat (size k) - 1) else 0 <= z < 2 ^ (8 * Z.of_nat (size k))
  end.

(** What the data of an object consists of: bytes, pointers (four bytes each), and the places where owned objects begin. *)
Inductive piece := Bytes (l : list Z) | Pointer (a : Z) (t : tptr) | Object (a : Z) (t : tptr).
Definition width (p : piece) : Z := match p with Bytes l => zlen l | Pointer _ _ => 4 | Object _ _ => 0 end.
Definition widths (l : list piece) : Z := fold_right (fun p n => width p + n) 0 l.

Definition desc (env : list tdesc) (t : tptr) : option tdesc := match t with PUser i => nth_error env i | _ => None end.

(** [layout env t v ps]: v is an object of type t, and its data consists of ps. *)
Inductive layout (env : list tdesc) : tptr -> val -> list piece -> Prop :=
| lay_num k z : numOk k z -> layout env (PNum k) (VNum z) [Bytes (le (size k) z)]
| lay_str s : zlen s < 2 ^ 32 -> layout env PString (VStr s) [Bytes (boxed s)]
| lay_fixed t n u l ps : desc env t = Some (TFixed n u) -> zlen l = n -> Forall2 (layout env u) l ps -> layout env t (VSeq l) (concat ps)
| lay_array t u l ps :
    desc env t = Some (TArray u) -> zlen l < 10000000 -> Forall2 (layout env u) l ps ->
    layout env t (VArr l) (Bytes (le 4 (zlen l)) :: concat ps)
| lay_owned t u a v ps : desc env t = Some (TOwned u) -> layout env u v ps -> layout env t (VOwn a v) (Object a u :: ps)
| lay_raw t u a : desc env t = Some (TRaw u) -> layout env t (VPtr a) [Pointer a u]
| lay_struct t name qs ms l ps :
    desc env t = Some (TStruct name qs ms) -> members env ms l ps -> layout env t (VSeq l) (concat ps)
| lay_enum t name n ids z j :
    desc env t = Some (TEnum name n ids) -> n = 1 \/ n = 2 \/ n = 4 ->
    nth_error (map snd ids) j = Some z -> ~ In z (firstn j (map snd ids)) -> Z.of_nat j < 2 ^ (8 * n) ->
    layout env t (VNum z) [Bytes (le (Z.to_nat n) (Z.of_nat j))]
| lay_enumarray t u e name n ids l ps :
    desc env t = Some (TEnumArray u e) -> nth_error env e = Some (TEnum name n ids) -> length l = length ids -> Forall2 (layout env u) l ps ->
    layout env t (VSeq l) (concat ps)
| lay_switch t name ss j n s v ps :
    desc env t = Some (TSwitch name ss) -> nth_error ss j = Some (n, s) -> Z.of_nat j < 2 ^ 16 -> layout env (PUser s) v ps ->
    layout env t (VSwitch j v) (Bytes (le 2 (Z.of_nat j)) :: ps)
with members (env : list tdesc) : list (list Z * tptr) -> list val -> list (list piece) -> Prop :=
| mem_nil : members env [] [] []
| mem_cons n t ms v l p ps : layout env t v p -> members env ms l ps -> members env ((n, t) :: ms) (v :: l) (p :: ps).

(** The types that can be described: sizes and counts fit in the fields for them, names are distinct, enum-indexed arrays have an
    enum whose identifiers are numbered from 0, and switches have structs for states. *)
Definition named_ok {A} (l : list (list Z * A)) : Prop := NoDup (map fst l) /\ Forall (fun x => zlen (fst x) < 2 ^ 32) l.
Definition desc_ok (env : list tdesc) (d : tdesc) : Prop :=
  match d with
  | TFixed n _ => 0 <= n < 2 ^ 32
  | TArray _ | TOwned _ | TRaw _ => True
  | TStruct name ps ms => zlen name < 2 ^ 32 /\ zlen ps <= 65535 /\ zlen ms <= 65535 /\ Forall (fun x => zlen (fst x) < 2 ^ 32) ps /\ named_ok ms
  | TEnum name n ids =>
    zlen name < 2 ^ 32 /\ (n = 1 \/ n = 2 \/ n = 4) /\ zlen ids < 2 ^ 32 /\ named_ok ids /\ Forall (fun x => 0 <= snd x < 2 ^ (8 * n)) ids
  | TEnumArray _ e => exists name n ids, nth_error env e = Some (TEnum name n ids) /\ map snd ids = map Z.of_nat (seq 0 (length ids))
  | TSwitch name ss =>
    zlen name < 2 ^ 32 /\ zlen ss <= 65535 /\ named_ok ss /\ Forall (fun s => exists n ps ms, nth_error env (snd s) = Some (TStruct n ps ms)) ss
  end.

(** What a type refers to, in order: with [true] for what is part of its objects or owned by them, and with [false] for the targets
    of pointers and for template parameters. *)
Definition refers (d : tdesc) : list (bool * tptr) :=
  match d with
  | TFixed _ t | TArray t | TOwned t => [(true, t)]
  | TRaw t => [(false, t)]
  | TStruct _ ps ms => map (fun p => (false, snd p)) ps ++ map (fun m => (true, snd m)) ms
  | TEnum _ _ _ => []
  | TEnumArray t e => [(true, t); (true, PUser e)]
  | TSwitch _ ss => map (fun s => (true, PUser (snd s))) ss
  end.
(** [walk env open seen x seen']: visiting the types that x leads to, each once, [open] being those whose visit is not yet finished,
    never leads to an object type that has itself as a part. Pointers may refer to any type that has been seen. *)
Inductive walk (env : list tdesc) : list nat -> list nat -> bool * tptr -> list nat -> Prop :=
| walk_num opened seen b k : walk env opened seen (b, PNum k) seen
| walk_str opened seen b : walk env opened seen (b, PString) seen
| walk_seen opened seen b i : In i seen -> (b = true -> ~ In i opened) -> walk env opened seen (b, PUser i) seen
| walk_new opened seen b i d seen' :
    ~ In i seen -> nth_error env i = Some d -> desc_ok env d -> walks env (i :: opened) (seen ++ [i]) (refers d) seen' ->
    walk env opened seen (b, PUser i) seen'
with walks (env : list tdesc) : list nat -> list nat -> list (bool * tptr) -> list nat -> Prop :=
| walks_nil opened seen : walks env opened seen [] seen
| walks_cons opened seen x l seen1 seen2 : walk env opened seen x seen1 -> walks env opened seen1 l seen2 -> walks env opened seen (x :: l) seen2.
Definition types_ok (env : list tdesc) (t : tptr) : Prop := Z.of_nat (length env) + 1000 < 2 ^ 32 /\ exists seen, walk env [] [] (true, t) seen.

(** In the data, an object that is pointed to is not at the place of an earlier one that is not. *)
Definition apart (ps : list piece) : Prop :=
  forall l1 a t l2 b u l3, ps = l1 ++ Object a t :: l2 ++ Object b u :: l3 -> widths l2 = 0 ->
  (exists v, In (Pointer b v) ps) -> exists v, In (Pointer a v) ps.

(** The objects that are pointed to are first pointed to in the order in which they are owned. *)
Definition ordered (ps : list piece) : Prop :=
  forall l1 a t l2 b u l3, ps = l1 ++ Object a t :: l2 ++ Object b u :: l3 -> (exists x, In (Pointer a x) ps) ->
  forall l x r, ps = l ++ Pointer b x :: r -> exists y, In (Pointer a y) l.
(** The addresses of owned objects. *)
Definition addresses (ps : list piece) : list Z := flat_map (fun p => match p with Object a _ => [a] | _ => [] end) ps.

(** Objects without pointers in them. *)
Fixpoint plain (v : val) : Prop :=
  match v with
  | VSeq l | VArr l => (fix all l := match l with [] => True | v :: l => plain v /\ all l end) l
  | VSwitch _ v => plain v
  | VOwn _ _ | VPtr _ | VLink _ _ => False
  | _ => True
  end.
(** Freshly constructed objects: all parts are there, without owned objects. *)
Inductive made (env : list tdesc) : tptr -> val -> Prop :=
| made_num k z : made env (PNum k) (VNum z)
| made_str s : made env PString (VStr s)
| made_fixed t n u l : desc env t = Some (TFixed n u) -> zlen l = n -> Forall (made env u) l -> made env t (VSeq l)
| made_array t u : desc env t = Some (TArray u) -> made env t (VArr [])
| made_owned t u : desc env t = Some (TOwned u) -> made env t VNull
| made_raw t u : desc env t = Some (TRaw u) -> made env t VNull
| made_struct t name ps ms l : desc env t = Some (TStruct name ps ms) -> Forall2 (fun m v => made env (snd m) v) ms l -> made env t (VSeq l)
| made_enum t name n ids z : desc env t = Some (TEnum name n ids) -> made env t (VNum z)
| made_enumarray t u e name n ids l :
    desc env t = Some (TEnumArray u e) -> nth_error env e = Some (TEnum name n ids) -> length l = length ids -> Forall (made env u) l -> made env t (VSeq l)
| made_switch t name ss j s v : desc env t = Some (TSwitch name ss) -> nth_error ss j = Some s -> made env (PUser (snd s)) v -> made env t (VSwitch j v).
Definition constructs (env : list tdesc) (dflt : tptr -> val) : Prop :=
  forall t, plain (dflt t) /\ (match t with PUser i => (i < length env)%nat | _ => True end -> made env t (dflt t)).

(** Whether there is a conversion at all between objects of two types. *)
Definition comparable (env env' : list tdesc) (t t' : tptr) : bool :=
  match t, t' with
  | PNum _, PNum _ | PString, PString => true
  | _, _ =>
    match desc env t, desc env' t' with
    | Some (TFixed n _), Some (TFixed m _) => n =? m
    | Some (TArray _), Some (TArray _) | Some (TOwned _), Some (TOwned _) | Some (TStruct _ _ _), Some (TStruct _ _ _)
    | Some (TEnumArray _ _), Some (TEnumArray _ _) | Some (TSwitch _ _), Some (TSwitch _ _) => true
    | _, _ => false
    end
  end.

Section Adapts.
(** The types of the program that saved and of the one that loads; the objects that the latter constructs; and, for each object
    that is pointed to, its type in the program that loads. *)
Context (env env' : list tdesc) (dflt : tptr -> val) (target : Z -> option tptr).
(** What is not loaded has no pointers in it and nothing that is pointed to. *)
Definition droppable (t : tptr) (v : val) : Prop :=
  exists ps, layout env t v ps /\ Forall (fun p => match p with Bytes _ => True | Pointer _ _ => False | Object a _ => target a = None end) ps.
(** [adapts t t' v old w]: v of type t, loaded into an object of type t' that contains [old], gives w; the objects in w have the
    addresses they had in v. *)
Inductive adapts : tptr -> tptr -> val -> val -> val -> Prop :=
| ad_num k k' z y old : cast k' (toNumeric k z) = Some y -> adapts (PNum k) (PNum k') (VNum z) old (VNum y)
| ad_str s old : adapts PString PString (VStr s) old (VStr s)
| ad_other t t' v old :
    comparable env env' t t' = false -> (forall i, t' = PUser i -> exists d, nth_error env' i = Some d /\ match d with TEnum _ _ _ | TRaw _ => False | _ => True end) ->
    droppable t v -> adapts t t' v old old
| ad_fixed t t' n u u' l ol l' :
    desc env t = Some (TFixed n u) -> desc env' t' = Some (TFixed n u') -> zlen ol = n ->
    adaptsAll u u' l ol l' -> adapts t t' (VSeq l) (VSeq ol) (VSeq l')
| ad_array t t' u u' l ol old l' :
    desc env t = Some (TArray u) -> desc env' t' = Some (TArray u') ->
    ol = map (fun _ => dflt u') l -> adaptsAll u u' l ol l' -> adapts t t' (VArr l) old (VArr l')
| ad_owned t t' u u' a v w :
    desc env t = Some (TOwned u) -> desc env' t' = Some (TOwned u') -> creatable env' u' = true ->
    (forall x, target a = Some x -> x = u') ->
    adapts u u' v (dflt u') w -> adapts t t' (VOwn a v) VNull (VOwn a w)
| ad_raw t t' u u' a old :
    desc env t = Some (TRaw u) -> desc env' t' = Some (TRaw u') -> target a = Some u' -> adapts t t' (VPtr a) old (VPtr a)
| ad_struct t t' name name' qs qs' ms ms' l ol l' :
    desc env t = Some (TStruct name qs ms) -> desc env' t' = Some (TStruct name' qs' ms') -> NoDup (map fst ms') ->
    length ol = length ms' -> length l' = length ms' ->
    (* a member is loaded from the member with the same name; without one it keeps its value *)
    (forall j n u' o w, nth_error ms' j = Some (n, u') -> nth_error ol j = Some o -> nth_error l' j = Some w ->
       (~ In n (map fst ms) /\ w = o) \/ exists k u v, nth_error ms k = Some (n, u) /\ nth_error l k = Some v /\ adapts u u' v o w) ->
    (* members with other names are dropped *)
    (forall k n u v, nth_error ms k = Some (n, u) -> nth_error l k = Some v -> ~ In n (map fst ms') -> droppable u v) ->
    adapts t t' (VSeq l) (VSeq ol) (VSeq l')
| ad_enum t t' name name' n n' ids ids' j x z y old :
    desc env t = Some (TEnum name n ids) -> desc env' t' = Some (TEnum name' n' ids') -> n' = 1 \/ n' = 2 \/ n' = 4 ->
    nth_error ids j = Some (x, z) -> ~ In z (firstn j (map snd ids)) -> NoDup (map fst ids') -> In (x, y) ids' -> 0 <= y < 2 ^ (8 * n') ->
    adapts t t' (VNum z) old (VNum y)
| ad_noenum t t' name name' n n' ids ids' j x z old :
    desc env t = Some (TEnum name n ids) -> desc env' t' = Some (TEnum name' n' ids') -> n' = 1 \/ n' = 2 \/ n' = 4 ->
    nth_error ids j = Some (x, z) -> ~ In z (firstn j (map snd ids)) -> ~ In x (map fst ids') ->
    adapts t t' (VNum z) old old
| ad_enumarray t t' u u' e e' name name' n n' ids ids' l ol l' :
    desc env t = Some (TEnumArray u e) -> desc env' t' = Some (TEnumArray u' e') ->
    nth_error env e = Some (TEnum name n ids) -> nth_error env' e' = Some (TEnum name' n' ids') ->
    NoDup (map fst ids') -> map snd ids' = map Z.of_nat (seq 0 (length ids')) -> length ol = length ids' -> length l' = length ids' ->
    (forall j x o w, nth_error (map fst ids') j = Some x -> nth_error ol j = Some o -> nth_error l' j = Some w ->
       (~ In x (map fst ids) /\ w = o) \/ exists k v, nth_error (map fst ids) k = Some x /\ nth_error l k = Some v /\ adapts u u' v o w) ->
    (forall k x v, nth_error (map fst ids) k = Some x -> nth_error l k = Some v -> ~ In x (map fst ids') -> droppable u v) ->
    adapts t t' (VSeq l) (VSeq ol) (VSeq l')
| ad_switch t t' name name' ss ss' j x s s' k o v w :
    desc env t = Some (TSwitch name ss) -> desc env' t' = Some (TSwitch name' ss') -> NoDup (map fst ss') ->
    (* the state has the same position in both programs *)
    nth_error ss j = Some (x, s) -> nth_error ss' j = Some (x, s') ->
    adapts (PUser s) (PUser s') v (if (k =? j)%nat then o else dflt (PUser s')) w ->
    adapts t t' (VSwitch j v) (VSwitch k o) (VSwitch j w)
| ad_noswitch t t' name name' ss ss' j x s k o v :
    desc env t = Some (TSwitch name ss) -> desc env' t' = Some (TSwitch name' ss') ->
    nth_error ss j = Some (x, s) -> ~ In x (map fst ss') -> droppable (PUser s) v ->
    adapts t t' (VSwitch j v) (VSwitch k o) (VSwitch k o)
with adaptsAll : tptr -> tptr -> list val -> list val -> list val -> Prop :=
| all_nil t t' : adaptsAll t t' [] [] []
| all_cons t t' v l o ol w l' : adapts t t' v o w -> adaptsAll t t' l ol l' -> adaptsAll t t' (v :: l) (o :: ol) (w :: l').
End Adapts.

(** The same object at other addresses: [m] says which. *)
Inductive renamed (m : list (Z * Z)) : val -> val -> Prop :=
| ren_num z : renamed m (VNum z) (VNum z)
| ren_str s : renamed m (VStr s) (VStr s)
| ren_seq l l' : Forall2 (renamed m) l l' -> renamed m (VSeq l) (VSeq l')
| ren_arr l l' : Forall2 (renamed m) l l' -> renamed m (VArr l) (VArr l')
| ren_own a b v v' : In (a, b) m -> renamed m v v' -> renamed m (VOwn a v) (VOwn b v')
| ren_null : renamed m VNull VNull
| ren_ptr a b : In (a, b) m -> renamed m (VPtr a) (VPtr b)
| ren_switch j v v' : renamed m v v' -> renamed m (VSwitch j v) (VSwitch j v').
Definition same (v v' : val) : Prop := exists m, NoDup (map fst m) /\ NoDup (map snd m) /\ renamed m v v'.
