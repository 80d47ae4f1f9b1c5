(* Model of the names that the documentation extractor knows and of their lookup.
   SRC = repos/plywood/src; DOCS = SRC/web/cook-docs/ply-web-cook-docs.
   DOCS/SemaEntity.h:45-111, SemaEntity.cpp:14-28 and 51-86, CookResult_ExtractAPI.cpp:156-235 and 509-555,
   CookResult_Page.cpp:27-32.
   Simplified: an entity's address is a number, and memory is not reused. [nameToChild] is the sequence of its
   items: that the B-tree keeps such a sequence, and where its searches stop, is C20; where among equal
   names an item is inserted is left open. Lists of template parameters have no parent and are in no
   map; they are left out, as are documentation, declarations and hashes. *)
From Verif Require Export Base StringViewModel.

(** SemaEntity.h:46-53. *)
Inductive kind := Namespace | Class | Member | FunctionParam.

(** SemaEntity.h:71-82: [parent], [type], [name], [nameToChild]. *)
Record ent := mkEnt { parentOf : option nat; kindOf : kind; nameOf : list Z; kids : list nat }.

(** The entities that are alive, and the address of the next. *)
Record docs := mkDocs { at_ : nat -> option ent; next : nat }.

(** WebCookerIndex: [globalScope] is a namespace without parent. *)
Definition nothing : docs := mkDocs (fun i => if Nat.eqb i 0 then Some (mkEnt None Namespace [] []) else None) 1.

Definition name_of (s : docs) (i : nat) : list Z := match at_ s i with Some e => nameOf e | None => [] end.
Definition kids_of (s : docs) (i : nat) : list nat := match at_ s i with Some e => kids e | None => [] end.
Definition kind_of (s : docs) (i : nat) : option kind := option_map kindOf (at_ s i).
Definition parent_of (s : docs) (i : nat) : option nat := match at_ s i with Some e => parentOf e | None => None end.

(** SemaEntity.h:59-64: [getIndex] and [less]; StringView.h [operator<], [operator==]. *)
Definition less (a b : list Z) : bool := sv_compare a b <? 0.
Definition same (a b : list Z) : bool := if list_eq_dec Z.eq_dec a b then true else false.

(** SemaEntity.cpp:61, 17: from the first child whose name is not less than [x] on. *)
Fixpoint fromGE (s : docs) (x : list Z) (ks : list nat) : list nat :=
  match ks with
  | [] => []
  | k :: r => if less (name_of s k) x then fromGE s x r else k :: r
  end.

(** SemaEntity.cpp:61-64: the child found in one scope. *)
Definition child (s : docs) (i : nat) (x : list Z) : option nat :=
  match fromGE s x (kids_of s i) with
  | k :: _ => if same (name_of s k) x then Some k else None
  | [] => None
  end.

(** SemaEntity.cpp:60-69 [lookup]; the outer [None] is a recursion deeper than [fuel]. *)
Fixpoint lookup (fuel : nat) (s : docs) (i : nat) (x : list Z) (checkParents : bool) : option (option nat) :=
  match fuel with
  | O => None
  | S fuel =>
    match child s i x with
    | Some k => Some (Some k)
    | None =>
      if checkParents then
        match parent_of s i with
        | Some p => lookup fuel s p x true
        | None => Some None
        end
      else Some None
    end
  end.

Definition isScope (k : option kind) : bool := match k with Some Namespace | Some Class => true | _ => false end.

(** SemaEntity.cpp:76-84, the loop of [lookupChain]. *)
Fixpoint chain_loop (s : docs) (first : bool) (result : nat) (comps : list (list Z)) : option (option nat) :=
  match comps with
  | [] => Some (Some result)
  | x :: r =>
    if negb first && negb (isScope (kind_of s result)) then Some None
    else match lookup (S (next s)) s result x first with
         | None => None
         | Some None => Some None
         | Some (Some k) => chain_loop s false k r
         end
  end.
(** SemaEntity.cpp:71-86 [lookupChain]. *)
Definition lookupChain (s : docs) (i : nat) (comps : list (list Z)) : option (option nat) :=
  match comps with [] => Some None | _ => chain_loop s true i comps end.

(** SemaEntity.cpp:51-58 [appendToQualifiedID]: what is written; [None] is the assertion that the entity
    is not the global namespace. *)
Fixpoint qualifiedID (fuel : nat) (s : docs) (i : nat) : option (list Z) :=
  match fuel with
  | O => None
  | S fuel =>
    match parent_of s i with
    | None => None
    | Some p =>
      match parent_of s p with
      | Some _ => match qualifiedID fuel s p with Some t => Some (t ++ [58; 58] ++ name_of s i) | None => None end
      | None => Some (name_of s i)
      end
    end
  end.

(** CookResult_Page.cpp:27-32 [resolveClassScope]; also 359, 489 and CookResult_ExtractPageMeta.cpp:97-98. *)
Definition resolve (s : docs) (text : list Z) : option (option nat) := lookupChain s 0 (sv_splitByte 58 text).

(** A new entity, inserted in the map of its parent between [a] and [b], or not inserted. *)
Definition setKids (s : docs) (p : nat) (ks : list nat) : nat -> option ent :=
  fun i => if Nat.eqb i p then match at_ s p with Some e => Some (mkEnt (parentOf e) (kindOf e) (nameOf e) ks) | None => None end else at_ s i.
Definition added (s : docs) (p : nat) (k : kind) (x : list Z) (ks : list nat) : docs :=
  mkDocs (fun i => if Nat.eqb i (next s) then Some (mkEnt (Some p) k x []) else setKids s p ks i) (S (next s)).

(** CookResult_ExtractAPI.cpp:211-226: what comes of entering a namespace. If the first entity of that name is
    not a namespace, the error is told at the place of [record], which is null there. *)
Inductive entering := Reenters (n : nat) | IsNew | Crashes.
Definition enterNamespace (s : docs) (p : nat) (x : list Z) : entering :=
  match child s p x with
  | Some k => match kind_of s k with Some Namespace => Reenters k | _ => Crashes end
  | None => IsNew
  end.

(** CookResult_ExtractAPI.cpp:166-172: how many times the error that the name is defined is told. *)
Fixpoint equalRun (s : docs) (x : list Z) (ks : list nat) : nat :=
  match ks with k :: r => if same (name_of s k) x then S (equalRun s x r) else O | [] => O end.
Definition alreadyDefined (s : docs) (p : nat) (x : list Z) : nat := equalRun s x (fromGE s x (kids_of s p)).

(** SemaEntity.cpp:18-24: the children of the parent without this one; [None] is the assertion. *)
Fixpoint removeRun (s : docs) (e : nat) (x : list Z) (ks : list nat) : option (list nat) :=
  match ks with
  | k :: r => if same (name_of s k) x then
                if Nat.eqb k e then Some r else option_map (cons k) (removeRun s e x r)
              else None
  | [] => None
  end.
Fixpoint upToGE (s : docs) (x : list Z) (ks : list nat) : list nat :=
  match ks with
  | [] => []
  | k :: r => if less (name_of s k) x then k :: upToGE s x r else []
  end.
(** SemaEntity.cpp:14-28, the destructor of an entity in a namespace. *)
Definition unregistered (s : docs) (e p : nat) : option (list nat) :=
  let x := name_of s e in
  option_map (app (upToGE s x (kids_of s p))) (removeRun s e x (fromGE s x (kids_of s p))).

(** The order kept by the B-tree. *)
Definition ordered (s : nat -> option ent) (ks : list nat) : Prop :=
  StronglySorted (fun i j => forall a b, s i = Some a -> s j = Some b -> less (nameOf b) (nameOf a) = false) ks.

(** CookResult_ExtractAPI.cpp:530-532: constructors are not added to the map. *)
Definition isCtor (s : docs) (p : nat) (k : kind) (x : list Z) : bool :=
  match kind_of s p, k with Some Class, Member => same x (name_of s p) | _, _ => false end.

(** What extracting and re-extracting files does with the entities. *)
Inductive step (s : docs) : docs -> Prop :=
(** CookResult_ExtractAPI.cpp:173-200: a class or structure. *)
| AddClass p x a b : isScope (kind_of s p) = true -> zlen x < 2 ^ 31 -> kids_of s p = a ++ b ->
    ordered (at_ (added s p Class x (a ++ next s :: b))) (a ++ next s :: b) ->
    step s (added s p Class x (a ++ next s :: b))
(** CookResult_ExtractAPI.cpp:227-234: a namespace that is not there yet. *)
| AddNamespace p x a b : isScope (kind_of s p) = true -> zlen x < 2 ^ 31 -> enterNamespace s p x = IsNew ->
    kids_of s p = a ++ b ->
    ordered (at_ (added s p Namespace x (a ++ next s :: b))) (a ++ next s :: b) ->
    step s (added s p Namespace x (a ++ next s :: b))
(** CookResult_ExtractAPI.cpp:522-538: a member, or a function or variable of a namespace. *)
| AddMember p x a b : isScope (kind_of s p) = true -> zlen x < 2 ^ 31 -> isCtor s p Member x = false ->
    kids_of s p = a ++ b ->
    ordered (at_ (added s p Member x (a ++ next s :: b))) (a ++ next s :: b) ->
    step s (added s p Member x (a ++ next s :: b))
| AddCtor p x : isScope (kind_of s p) = true -> zlen x < 2 ^ 31 -> isCtor s p Member x = true ->
    step s (added s p Member x (kids_of s p))
(** CookResult_ExtractAPI.cpp:540-553: a parameter of a function. *)
| AddParam p x a b : kind_of s p = Some Member -> zlen x < 2 ^ 31 -> kids_of s p = a ++ b ->
    ordered (at_ (added s p FunctionParam x (a ++ next s :: b))) (a ++ next s :: b) ->
    step s (added s p FunctionParam x (a ++ next s :: b))
(** SemaEntity.cpp:14-28: an entity of a namespace is destroyed, and what it contains with it ([D]). *)
| Drop e p ks D : parent_of s e = Some p -> kind_of s p = Some Namespace -> unregistered s e p = Some ks ->
    (forall i, D i = true <-> i = e \/ exists q, parent_of s i = Some q /\ D q = true) ->
    step s (mkDocs (fun i => if D i then None else setKids s p ks i) (next s)).

Inductive reached : docs -> Prop :=
| reached_nothing : reached nothing
| reached_step s s' : reached s -> step s s' -> reached s'.
