(* Properties of saved assets. *)
From Coq Require Import Lia String.
From Verif Require Import Base Txt PersistModel PersistSpec PersistSchema PersistProofs PersistNum PersistRound PersistSave PersistValue PersistRefute.
Local Open Scope string_scope.
Local Open Scope list_scope.
Local Open Scope Z_scope.
Local Notation length := List.length.

(* ---- the types of the examples ---- *)
Definition Node := PUser 0.
Definition C72_types : list tdesc :=
  [ TStruct (txt "Node") [] [(txt "x", PNum KS16); (txt "next", PUser 4)];
    TOwned Node; TArray (PUser 1);
    TStruct (txt "Root") [] [(txt "nodes", PUser 2); (txt "f", PNum Kfloat); (txt "e", PUser 5); (txt "a", PUser 6); (txt "w", PUser 7)];
    TRaw Node; TEnum (txt "Color") 1 [(txt "red", 0); (txt "blue", 1)]; TEnumArray PString 5;
    TSwitch (txt "Shape") [(txt "square", 8%nat); (txt "circle", 9%nat)];
    TStruct (txt "Square") [] [(txt "z", PNum KU64)]; TStruct (txt "Circle") [] [(txt "r", PNum Kdouble)] ].
Definition C72_new (t : tptr) : val :=
  match t with
  | PNum _ => VNum 0 | PString => VStr []
  | PUser 0 => VSeq [VNum 0; VNull]
  | PUser 2 => VArr []
  | PUser 3 => VSeq [VArr []; VNum 0; VNum 0; VSeq [VStr []; VStr []]; VSwitch 0 (VSeq [VNum 0])]
  | PUser 5 => VNum 0
  | PUser 6 => VSeq [VStr []; VStr []]
  | PUser 7 => VSwitch 0 (VSeq [VNum 0])
  | PUser 8 | PUser 9 => VSeq [VNum 0]
  | PUser _ => VNull
  end.
(** Three nodes; the second points to the first, the others to themselves. *)
Definition C72_object : val :=
  VSeq [VArr [VOwn 500 (VSeq [VNum (-3); VPtr 500]); VOwn 600 (VSeq [VNum 7; VPtr 500]); VOwn 700 (VSeq [VNum 8; VPtr 700])];
        VNum 1066192077; VNum 1; VSeq [VStr (txt "up"); VStr []]; VSwitch 1 (VSeq [VNum 13830554455654793216])].
Ltac inOrNot := cbn; intuition (try discriminate; try lia).
Ltac names := split; [cbn; repeat (constructor; [inOrNot|]); constructor|repeat (constructor; [reflexivity|]); constructor].
Ltac descs := cbn [desc_ok]; first
  [ exact I
  | lia
  | split; [reflexivity|]; split; [discriminate|]; split; [discriminate|]; split; [repeat (constructor; [reflexivity|]); constructor|names]
  | split; [reflexivity|]; split; [lia|]; split; [reflexivity|]; split; [names|repeat (constructor; [cbn; lia|]); constructor]
  | eexists _, _, _; split; reflexivity
  | split; [reflexivity|]; split; [discriminate|]; split; [names|repeat (constructor; [eexists _, _, _; reflexivity|]); constructor] ].
Ltac walking := lazymatch goal with
  | |- walks _ _ _ [] _ => apply walks_nil
  | |- walks _ _ _ (_ :: _) _ => eapply walks_cons; walking
  | |- walk _ _ _ (_, PNum _) _ => apply walk_num
  | |- walk _ _ _ (_, PString) _ => apply walk_str
  | |- walk _ _ _ (_, PUser _) _ =>
    first [apply walk_seen; [solve [cbn; tauto]|solve [inOrNot]] | eapply walk_new; [solve [inOrNot]|reflexivity|solve [descs]|cbn [refers map app fst snd]; walking]]
  end.
Lemma C72_types_ok : types_ok C72_types (PUser 3).
Proof. split; [reflexivity|]. eexists. unfold C72_types, Node. walking. Qed.
Lemma C72_descs : Forall (desc_ok C72_types) C72_types.
Proof. unfold C72_types. repeat (constructor; [descs|]). constructor. Qed.
Ltac making := match goal with
  | |- made _ (PNum _) _ => apply made_num
  | |- made _ PString _ => apply made_str
  | |- made _ (PUser _) _ => first
    [ eapply made_fixed; [reflexivity|reflexivity|repeat constructor; making] | eapply made_array; reflexivity | eapply made_owned; reflexivity | eapply made_raw; reflexivity
    | eapply made_struct; [reflexivity|repeat (constructor; [cbn [snd]; making|]); constructor]
    | eapply made_enum; reflexivity
    | eapply made_enumarray; [reflexivity|reflexivity|reflexivity|repeat (constructor; [making|]); constructor]
    | eapply made_switch; [reflexivity|reflexivity|cbn [snd]; making] ]
  end.
Lemma C72_constructs : constructs C72_types C72_new.
Proof.
  intros t. split.
  - destruct t as [| |i]; try exact I. do 10 (destruct i as [|i]; [cbn; tauto|]). exact I.
  - destruct t as [k| |i]; intros H; try (cbn; making).
    do 10 (destruct i as [|i]; [cbn [C72_new]; unfold C72_types, Node; making|]). cbn in H. lia.
Qed.
Ltac laying := match goal with
  | |- layout _ (PNum _) _ _ => apply lay_num; split; [cbn; intuition lia|cbn; lia]
  | |- layout _ PString _ _ => apply lay_str; reflexivity
  | |- layout _ (PUser _) _ _ => first
    [ eapply lay_fixed; [reflexivity|reflexivity|repeat (eapply Forall2_cons; [laying|]); apply Forall2_nil]
    | eapply lay_array; [reflexivity|reflexivity|repeat (eapply Forall2_cons; [laying|]); apply Forall2_nil]
    | eapply lay_owned; [reflexivity|laying]
    | eapply lay_raw; reflexivity
    | eapply lay_struct; [reflexivity|repeat (eapply mem_cons; [laying|]); apply mem_nil]
    | eapply lay_enumarray; [reflexivity|reflexivity|reflexivity|repeat (eapply Forall2_cons; [laying|]); apply Forall2_nil]
    | eapply lay_enum with (j := 0%nat); [reflexivity|lia|reflexivity|solve [inOrNot]|reflexivity]
    | eapply lay_enum with (j := 1%nat); [reflexivity|lia|reflexivity|solve [inOrNot]|reflexivity]
    | eapply lay_switch; [reflexivity|reflexivity|reflexivity|laying] ]
  end.
(** The data of the object: the nodes, each with its number and its pointer, then the rest. *)
Definition C72_pieces : list piece :=
  [ Bytes (le 4 3); Object 500 Node; Bytes (le 2 (-3)); Pointer 500 Node; Object 600 Node; Bytes (le 2 7); Pointer 500 Node;
    Object 700 Node; Bytes (le 2 8); Pointer 700 Node;
    Bytes (le 4 1066192077); Bytes (le 1 1); Bytes (boxed (txt "up")); Bytes (boxed []); Bytes (le 2 1); Bytes (le 8 13830554455654793216) ].
Lemma C72_layout : layout C72_types (PUser 3) C72_object C72_pieces.
Proof.
  assert (E : exists ps, layout C72_types (PUser 3) C72_object ps /\ ps = C72_pieces); [|destruct E as (ps & H & <-); exact H].
  eexists. split; [unfold C72_types, C72_object, Node; laying|reflexivity].
Qed.
Lemma C72_apart : apart C72_pieces.
Proof. apply apartb_ok. reflexivity. Qed.
Lemma C72_ordered : ordered C72_pieces.
Proof. apply orderedb_ok. reflexivity. Qed.

(* ---- C72: saving and loading ---- *)
(** An object is saved if its types can be described, every object is owned once, every pointer points to an object that is owned
    by it, of the type of the pointer, and the objects are first pointed to in the order in which they are owned. *)
Theorem C72_saves : forall env t v ps, types_ok env t -> layout env t v ps -> NoDup (addresses ps) -> 4 + widths ps < 2 ^ 32 ->
  (forall a u, In (Pointer a u) ps -> In (Object a u) ps) -> ordered ps -> exists file, writeAsset env t v = Some file.
Proof. exact saves. Qed.
Print Assumptions C72_saves.
Example C72_saves_ex : types_ok C72_types (PUser 3) /\ layout C72_types (PUser 3) C72_object C72_pieces /\ NoDup (addresses C72_pieces) /\
  4 + widths C72_pieces < 2 ^ 32 /\ (forall a u, In (Pointer a u) C72_pieces -> In (Object a u) C72_pieces) /\ ordered C72_pieces.
Proof.
  split; [exact C72_types_ok|]. split; [exact C72_layout|]. split; [cbn; repeat (constructor; [inOrNot|]); constructor|]. split; [reflexivity|]. split; [|exact C72_ordered].
  intros a u H. cbn in H. repeat (destruct H as [H|H]; [try discriminate H; injection H as <- <-; cbn; tauto|]). elim H.
Qed.
(** What was saved is loaded as the same object: equal numbers, strings, lengths and states, with the owned objects at new
    addresses, to which the pointers point. *)
Theorem C72_round_trip_partial : forall env dflt t v ps file,
  types_ok env t -> Forall (desc_ok env) env -> constructs env dflt -> creatable env t = true ->
  layout env t v ps -> (forall a u, In (Object a u) ps -> creatable env u = true) -> apart ps ->
  writeAsset env t v = Some file -> zlen file < 2 ^ 32 ->
  exists v', readAsset env dflt t file = Some v' /\ same v v'.
Proof. exact round_trip. Qed.
Print Assumptions C72_round_trip_partial.
Example C72_round_trip_ex : exists file, writeAsset C72_types (PUser 3) C72_object = Some file /\ zlen file < 2 ^ 32 /\
  Forall (desc_ok C72_types) C72_types /\ constructs C72_types C72_new /\ apart C72_pieces /\ (forall a u, In (Object a u) C72_pieces -> creatable C72_types u = true) /\
  readAsset C72_types C72_new (PUser 3) file =
  Some (VSeq [VArr [VOwn 1 (VSeq [VNum (-3); VPtr 1]); VOwn 2 (VSeq [VNum 7; VPtr 1]); VOwn 3 (VSeq [VNum 8; VPtr 3])];
              VNum 1066192077; VNum 1; VSeq [VStr (txt "up"); VStr []]; VSwitch 1 (VSeq [VNum 13830554455654793216])]).
Proof.
  destruct (C72_saves C72_types (PUser 3) C72_object C72_pieces) as [file E]; try apply C72_saves_ex. exists file. split; [exact E|].
  assert (F : writeAsset C72_types (PUser 3) C72_object <> None) by congruence.
  remember (writeAsset C72_types (PUser 3) C72_object) as w eqn:Ew. vm_compute in Ew. rewrite E in Ew. assert (EF := f_equal (fun o => match o with Some x => x | None => [] end) Ew). cbv beta iota in EF. rewrite EF.
  split; [reflexivity|]. split; [exact C72_descs|]. split; [exact C72_constructs|]. split; [exact C72_apart|]. split; [|vm_compute; reflexivity].
  intros a u H. cbn in H. repeat (destruct H as [H|H]; [try discriminate H; injection H as <- <-; reflexivity|]). elim H.
Qed.

(* ---- what cannot be saved, or is not loaded ---- *)
Definition saveLoad (env : list tdesc) (dflt : tptr -> val) (t : tptr) (v : val) : option (option val) :=
  match writeAsset env t v with Some file => Some (readAsset env dflt t file) | None => None end.
(** A type whose objects own objects of the same type: they are saved, but a tree of more than one is not loaded, since the format
    that is being read stands for a null pointer. *)
Definition treeTypes : list tdesc := [TStruct (txt "Tree") [] [(txt "id", PNum KU8); (txt "kids", PUser 2)]; TOwned (PUser 0); TArray (PUser 1)].
Definition treeNew (t : tptr) : val := match t with PUser 0 => VSeq [VNum 0; VArr []] | PUser 2 => VArr [] | _ => VNull end.
Theorem C72_tree_refuted :
  saveLoad treeTypes treeNew (PUser 0) (VSeq [VNum 1; VArr [VOwn 5 (VSeq [VNum 2; VArr []])]]) = Some None /\
  saveLoad treeTypes treeNew (PUser 0) (VSeq [VNum 1; VArr []]) = Some (Some (VSeq [VNum 1; VArr []])).
Proof. vm_compute. split; reflexivity. Qed.
Print Assumptions C72_tree_refuted.
(** Two objects, and pointers to them. In the other order, saving fails an assertion. *)
Definition pairTypes : list tdesc :=
  [TStruct (txt "P") [] [(txt "x", PNum KU8)]; TOwned (PUser 0); TRaw (PUser 0);
   TStruct (txt "R") [] [(txt "a", PUser 1); (txt "b", PUser 1); (txt "first", PUser 2); (txt "second", PUser 2)]].
Definition pairNew (t : tptr) : val := match t with PUser 0 => VSeq [VNum 0] | PUser 3 => VSeq [VNull; VNull; VNull; VNull] | _ => VNull end.
Definition pairObject (p q : Z) : val := VSeq [VOwn 5 (VSeq [VNum 1]); VOwn 6 (VSeq [VNum 2]); VPtr p; VPtr q].
Theorem C72_order_refuted :
  saveLoad pairTypes pairNew (PUser 3) (pairObject 5 6) = Some (Some (VSeq [VOwn 1 (VSeq [VNum 1]); VOwn 2 (VSeq [VNum 2]); VPtr 1; VPtr 2])) /\
  writeAsset pairTypes (PUser 3) (pairObject 6 5) = None.
Proof. vm_compute. split; reflexivity. Qed.
Print Assumptions C72_order_refuted.
(** Two objects without data, and a pointer to the second: it is loaded as a pointer to the first. *)
Definition emptyTypes : list tdesc :=
  [TStruct (txt "E") [] []; TOwned (PUser 0); TRaw (PUser 0); TStruct (txt "R") [] [(txt "a", PUser 1); (txt "b", PUser 1); (txt "p", PUser 2)]].
Definition emptyNew (t : tptr) : val := match t with PUser 0 => VSeq [] | PUser 3 => VSeq [VNull; VNull; VNull] | _ => VNull end.
Theorem C72_place_refuted :
  saveLoad emptyTypes emptyNew (PUser 3) (VSeq [VOwn 7 (VSeq []); VOwn 8 (VSeq []); VPtr 8]) = Some (Some (VSeq [VOwn 1 (VSeq []); VOwn 2 (VSeq []); VPtr 1])) /\
  ~ same (VSeq [VOwn 7 (VSeq []); VOwn 8 (VSeq []); VPtr 8]) (VSeq [VOwn 1 (VSeq []); VOwn 2 (VSeq []); VPtr 1]).
Proof.
  split; [vm_compute; reflexivity|]. intros (m & N1 & N2 & R). inversion R as [| |l l' F| | | | |]; subst.
  inversion F as [|? ? ? ? F1 F']; subst. inversion F' as [|? ? ? ? F2 F'']; subst. inversion F'' as [|? ? ? ? F3 _]; subst.
  inversion F1; subst. inversion F3; subst.
  assert (K : 7 = 8); [|discriminate K].
  match goal with H : In (7, 1) m, H' : In (8, 1) m |- _ => revert H H' end. clear - N2. intros H H'.
  induction m as [|[a b] m IH]; [elim H|]. cbn [map snd] in N2. inversion N2 as [|? ? Q1 Q2]; subst.
  destruct H as [H|H], H' as [H'|H'].
  - congruence.
  - injection H as -> ->. elim Q1. change 1 with (snd (8, 1)). now apply in_map.
  - injection H' as -> ->. elim Q1. change 1 with (snd (7, 1)). now apply in_map.
  - auto.
Qed.
Print Assumptions C72_place_refuted.
(** Null pointers cannot be saved, in whatever object they are (holdsNull). *)
Theorem C72_null_refuted : forall env t v, holdsNull v = true -> writeAsset env t v = None.
Proof. exact null_not_saved. Qed.
Print Assumptions C72_null_refuted.
(** Arrays of ten million items or more are saved, but not loaded: a struct with one array (bigTypes). *)
Theorem C72_big_refuted : forall dflt l, 10000000 <= zlen l < 2 ^ 32 ->
  exists file, writeAsset bigTypes (PUser 0) (VSeq [VArr (map VNum l)]) = Some file /\ readAsset bigTypes dflt (PUser 0) file = None.
Proof. exact big_not_loaded. Qed.
Print Assumptions C72_big_refuted.
(** An array that is owned is saved, but not loaded. *)
Definition boxTypes : list tdesc := [TStruct (txt "Box") [] [(txt "l", PUser 1)]; TOwned (PUser 2); TArray (PNum KU8)].
Definition boxNew (t : tptr) : val := match t with PUser 0 => VSeq [VNull] | PUser 2 => VArr [] | _ => VNull end.
Theorem C72_box_refuted : saveLoad boxTypes boxNew (PUser 0) (VSeq [VOwn 5 (VArr [VNum 1])]) = Some None.
Proof. vm_compute. reflexivity. Qed.
Print Assumptions C72_box_refuted.

(* ---- C73: loading with other types ---- *)
(** The types of the program that saved, and of a later one: members are reordered, added and dropped, numbers have other kinds and
    the identifiers of the enum other values. *)
Definition C73_types : list tdesc :=
  [ TStruct (txt "Item") [] [(txt "x", PNum KS16); (txt "gone", PString); (txt "color", PUser 1)];
    TEnum (txt "Color") 1 [(txt "red", 0); (txt "green", 1)]; TOwned (PUser 0); TArray (PUser 2); TRaw (PUser 0);
    TStruct (txt "Root") [] [(txt "items", PUser 3); (txt "current", PUser 4); (txt "size", PNum Kfloat)] ].
Definition C73_later : list tdesc :=
  [ TStruct (txt "Item") [] [(txt "color", PUser 1); (txt "x", PNum KS32); (txt "extra", PNum KU8)];
    TEnum (txt "Color") 2 [(txt "blue", 0); (txt "green", 1); (txt "red", 2)]; TOwned (PUser 0); TArray (PUser 2); TRaw (PUser 0);
    TStruct (txt "Root") [] [(txt "current", PUser 4); (txt "items", PUser 3); (txt "size", PNum Kdouble); (txt "title", PString)] ].
Definition C73_new (t : tptr) : val :=
  match t with
  | PNum _ => VNum 0 | PString => VStr []
  | PUser 0 => VSeq [VNum 0; VNum 0; VNum 9]
  | PUser 1 => VNum 0
  | PUser 3 => VArr []
  | PUser 5 => VSeq [VNull; VArr []; VNum 0; VStr (txt "none")]
  | _ => VNull
  end.
Definition C73_object : val :=
  VSeq [VArr [VOwn 10 (VSeq [VNum (-3); VStr (txt "abc"); VNum 0]); VOwn 20 (VSeq [VNum 7; VStr []; VNum 1])]; VPtr 20; VNum 1069547520].
Definition C73_adapted : val :=
  VSeq [VPtr 20; VArr [VOwn 10 (VSeq [VNum 2; VNum (-3); VNum 9]); VOwn 20 (VSeq [VNum 1; VNum 7; VNum 9])]; VNum 4609434218613702656; VStr (txt "none")].
Definition C73_target (a : Z) : option tptr := if a =? 20 then Some (PUser 0) else None.
Definition C73_pieces : list piece :=
  [ Bytes (le 4 2); Object 10 (PUser 0); Bytes (le 2 (-3)); Bytes (boxed (txt "abc")); Bytes (le 1 0);
    Object 20 (PUser 0); Bytes (le 2 7); Bytes (boxed []); Bytes (le 1 1); Pointer 20 (PUser 0); Bytes (le 4 1069547520) ].
(** What was saved is loaded by a program with other types as [adapts] says: members and identifiers by their names, with the
    values of a fresh object where there is nothing to load. *)
Theorem C73_versions : forall env env' dflt target t t' v w ps file,
  types_ok env t -> layout env t v ps -> apart ps -> writeAsset env t v = Some file -> zlen file < 2 ^ 32 ->
  (forall t, plain (dflt t)) -> creatable env' t' = true ->
  (forall a u, In (Pointer a u) ps -> target a <> None) -> adapts env env' dflt target t t' v (dflt t') w ->
  exists v', readAsset env' dflt t' file = Some v' /\ same w v'.
Proof. intros. eapply load_adapts; eassumption. Qed.
Print Assumptions C73_versions.
Lemma C73_layout : layout C73_types (PUser 5) C73_object C73_pieces.
Proof.
  assert (E : exists ps, layout C73_types (PUser 5) C73_object ps /\ ps = C73_pieces); [|destruct E as (ps & H & <-); exact H].
  eexists. split; [unfold C73_types, C73_object; laying|reflexivity].
Qed.
Lemma C73_item a x s c c' :
  numOk KS16 x -> zlen s < 2 ^ 32 -> (c = 0 /\ c' = 2) \/ (c = 1 /\ c' = 1) ->
  adapts C73_types C73_later C73_new C73_target (PUser 2) (PUser 2) (VOwn a (VSeq [VNum x; VStr s; VNum c])) VNull (VOwn a (VSeq [VNum c'; VNum x; VNum 9])).
Proof.
  intros X S C. eapply ad_owned; try reflexivity.
  - unfold C73_target. intros u. destruct (a =? 20); congruence.
  - eapply ad_struct; try reflexivity.
    + cbn. repeat (constructor; [inOrNot|]). constructor.
    + intros [|[|[|j]]] n u' o w' H1 H2 H3; cbn in H1, H2, H3; try discriminate; try (destruct j; discriminate); injection H1 as <- <-; injection H2 as <-; injection H3 as <-.
      * right. exists 2%nat, (PUser 1), (VNum c). split; [reflexivity|]. split; [reflexivity|]. destruct C as [[-> ->]|[-> ->]].
        -- eapply ad_enum with (j := 0%nat) (x := txt "red"); try reflexivity; [lia|cbn; tauto|cbn; repeat (constructor; [inOrNot|]); constructor|cbn; tauto|lia].
        -- eapply ad_enum with (j := 1%nat) (x := txt "green"); try reflexivity; [lia|cbn; intuition lia|cbn; repeat (constructor; [inOrNot|]); constructor|cbn; tauto|lia].
      * right. exists 0%nat, (PNum KS16), (VNum x). split; [reflexivity|]. split; [reflexivity|]. apply ad_num. cbn [toNumeric cast castInt isSigned size]. f_equal. apply to_signed_id; [lia|]. destruct X as [_ X]. cbn in *. lia.
      * left. split; [|reflexivity]. cbn. inOrNot.
    + intros [|[|[|k]]] n u v H1 H2 N; cbn in H1, H2; try discriminate; try (destruct k; discriminate); injection H1 as <- <-; injection H2 as <-.
      * elim N. cbn. tauto.
      * eexists. split; [apply lay_str; exact S|]. constructor; [exact I|constructor].
      * elim N. cbn. tauto.
Qed.
Lemma C73_adapts : adapts C73_types C73_later C73_new C73_target (PUser 5) (PUser 5) C73_object (C73_new (PUser 5)) C73_adapted.
Proof.
  eapply ad_struct; try reflexivity.
  - cbn. repeat (constructor; [inOrNot|]). constructor.
  - intros [|[|[|[|j]]]] n u' o w' H1 H2 H3; cbn in H1, H2, H3; try discriminate; try (destruct j; discriminate); injection H1 as <- <-; injection H2 as <-; injection H3 as <-.
    + right. exists 1%nat, (PUser 4), (VPtr 20). split; [reflexivity|]. split; [reflexivity|]. eapply ad_raw; reflexivity.
    + right. eexists 0%nat, (PUser 3), _. split; [reflexivity|]. split; [reflexivity|]. eapply ad_array; try reflexivity. cbn [map C73_new].
      constructor; [|constructor; [|constructor]]; apply C73_item; try (split; cbn; lia); try reflexivity; lia.
    + right. exists 2%nat, (PNum Kfloat), (VNum 1069547520). split; [reflexivity|]. split; [reflexivity|]. apply ad_num. vm_compute. reflexivity.
    + left. split; [|reflexivity]. cbn. inOrNot.
  - intros [|[|[|k]]] n u v H1 H2 N; cbn in H1, H2; try discriminate; try (destruct k; discriminate); injection H1 as <- <-; elim N; cbn; tauto.
Qed.
Example C73_versions_ex : exists file, types_ok C73_types (PUser 5) /\ layout C73_types (PUser 5) C73_object C73_pieces /\ apart C73_pieces /\
  writeAsset C73_types (PUser 5) C73_object = Some file /\ zlen file < 2 ^ 32 /\ (forall t, plain (C73_new t)) /\ creatable C73_later (PUser 5) = true /\
  (forall a u, In (Pointer a u) C73_pieces -> C73_target a <> None) /\
  adapts C73_types C73_later C73_new C73_target (PUser 5) (PUser 5) C73_object (C73_new (PUser 5)) C73_adapted /\
  readAsset C73_later C73_new (PUser 5) file = 
    Some (VSeq [VPtr 2; VArr [VOwn 1 (VSeq [VNum 2; VNum (-3); VNum 9]); VOwn 2 (VSeq [VNum 1; VNum 7; VNum 9])]; VNum 4609434218613702656; VStr (txt "none")]).
Proof.
  destruct (writeAsset C73_types (PUser 5) C73_object) as [file|] eqn:E; [|vm_compute in E; discriminate E]. exists file.
  split; [split; [reflexivity|]; eexists; unfold C73_types; walking|]. split; [exact C73_layout|]. split; [apply apartb_ok; reflexivity|]. split; [reflexivity|].
  vm_compute in E. assert (EF := f_equal (fun o => match o with Some x => x | None => [] end) E). cbv beta iota in EF. rewrite <- EF.
  split; [reflexivity|]. split; [intros [| |i]; try exact I; do 6 (destruct i as [|i]; [cbn; tauto|]); exact I|]. split; [reflexivity|].
  split; [intros a u H; cbn in H; repeat (destruct H as [H|H]; [try discriminate H; injection H as <- <-; discriminate|]); elim H|]. split; [exact C73_adapts|vm_compute; reflexivity].
Qed.
(** A number is converted to another kind with the same value, if the other kind has this value. *)
Theorem C73_numbers : forall k k' z, numOk k z -> (exists y, numOk k' y /\ sameValue k z k' y) -> exists y, cast k' (toNumeric k z) = Some y /\ numOk k' y /\ sameValue k z k' y.
Proof. exact cast_value. Qed.
Print Assumptions C73_numbers.
(** 1.5 as a float and as a double; -12 as an integer and as a float. *)
Example C73_numbers_ex : sameValue Kfloat 1069547520 Kdouble 4609434218613702656 /\ cast Kdouble (toNumeric Kfloat 1069547520) = Some 4609434218613702656 /\
  sameValue KS8 (-12) Kfloat 3242196992 /\ cast Kfloat (toNumeric KS8 (-12)) = Some 3242196992 /\ cast KS8 (toNumeric Kfloat 3242196992) = Some (-12).
Proof.
  split; [exists (12582912, -23), (6755399441055744, -52); repeat split; vm_compute; reflexivity|]. split; [vm_compute; reflexivity|].
  split; [exists (-12, 0), (-12582912, -20); repeat split; vm_compute; reflexivity|]. split; vm_compute; reflexivity.
Qed.
(** An integer that does not fit is taken modulo a power of two, whatever its kind. *)
Theorem C73_wraps : forall k k' z, ~ In k' [Kbool; Kfloat; Kdouble] -> ~ In k [Kfloat; Kdouble] -> numOk k z ->
  exists y, cast k' (toNumeric k z) = Some y /\ numOk k' y /\ (2 ^ (8 * Z.of_nat (size k')) | y - z).
Proof. exact cast_wraps. Qed.
Print Assumptions C73_wraps.
Example C73_wraps_ex : numOk KU16 65535 /\ cast KS8 (toNumeric KU16 65535) = Some (-1) /\ cast KU8 (toNumeric KS32 (-2)) = Some 254.
Proof. split; [split; [intros []|cbn; lia]|split; reflexivity]. Qed.

(* ---- what is lost between versions ---- *)
Definition loadLater (env env' : list tdesc) (dflt : tptr -> val) (t : tptr) (v : val) : option (option val) :=
  match writeAsset env t v with Some file => Some (readAsset env' dflt t file) | None => None end.
(** The states of a switch are found by name, but read in the format of the state that has the new number: if the order of the
    states changes, the contents are lost or the program crashes. *)
Definition shapes (ss : list (list Z * nat)) : list tdesc :=
  [TStruct (txt "A") [] [(txt "x", PNum KU8)]; TStruct (txt "B") [] [(txt "y", PNum KU16)]; TSwitch (txt "S") ss].
Definition shapeNew (t : tptr) : val := match t with PUser 2 => VSwitch 0 (VSeq [VNum 0]) | PUser _ => VSeq [VNum 0] | _ => VNull end.
Theorem C73_switch_refuted : forall z, 0 <= z < 2 ^ 16 ->
  loadLater (shapes [(txt "a", 0%nat); (txt "b", 1%nat)]) (shapes [(txt "b", 1%nat); (txt "a", 0%nat)]) shapeNew (PUser 2) (VSwitch 1 (VSeq [VNum z])) = Some (Some (VSwitch 0 (VSeq [VNum 0]))).
Proof. exact switch_lost. Qed.
Print Assumptions C73_switch_refuted.
(** A member that points to another object cannot be removed: loading the file fails an assertion. *)
Definition pointerTypes (more : list (list Z * tptr)) : list tdesc :=
  [TStruct (txt "P") [] [(txt "x", PNum KU8)]; TOwned (PUser 0); TRaw (PUser 0); TStruct (txt "R") [] ((txt "a", PUser 1) :: more)].
Definition pointerNew (t : tptr) : val := match t with PUser 0 => VSeq [VNum 0] | PUser 3 => VSeq [VNull] | _ => VNull end.
Theorem C73_pointer_refuted :
  loadLater (pointerTypes [(txt "p", PUser 2)]) (pointerTypes []) pointerNew (PUser 3) (VSeq [VOwn 5 (VSeq [VNum 1]); VPtr 5]) = Some None /\
  loadLater (pointerTypes [(txt "p", PNum KU8)]) (pointerTypes []) pointerNew (PUser 3) (VSeq [VOwn 5 (VSeq [VNum 1]); VNum 5]) = Some (Some (VSeq [VOwn 1 (VSeq [VNum 1])])).
Proof. vm_compute. split; reflexivity. Qed.
Print Assumptions C73_pointer_refuted.
(** A member that owns an object cannot be removed while a member that stays points to this object: loading the file fails an
    assertion (the pointer does not become null). *)
Definition ownerTypes (more : list (list Z * tptr)) : list tdesc :=
  [TStruct (txt "P") [] [(txt "x", PNum KU8)]; TOwned (PUser 0); TRaw (PUser 0);
   TStruct (txt "R") [] (more ++ [(txt "b", PUser 1); (txt "p", PUser 2); (txt "q", PUser 2)])].
Definition ownerNew (t : tptr) : val := match t with PUser 0 => VSeq [VNum 0] | PUser 3 => VSeq [VNull; VNull; VNull] | _ => VNull end.
Theorem C73_target_refuted :
  loadLater (ownerTypes [(txt "a", PUser 1)]) (ownerTypes []) ownerNew (PUser 3)
    (VSeq [VOwn 5 (VSeq [VNum 1]); VOwn 6 (VSeq [VNum 2]); VPtr 5; VPtr 6]) = Some None /\
  loadLater (ownerTypes [(txt "a", PUser 1)]) (ownerTypes []) ownerNew (PUser 3)
    (VSeq [VOwn 5 (VSeq [VNum 1]); VOwn 6 (VSeq [VNum 2]); VPtr 6; VPtr 6]) = Some (Some (VSeq [VOwn 1 (VSeq [VNum 2]); VPtr 1; VPtr 1])).
Proof. vm_compute. split; reflexivity. Qed.
Print Assumptions C73_target_refuted.
(** Nonzero integers become false, if they are multiples of 2^32. *)
Theorem C73_bool_refuted : forall k z, In k [KS64; KU64] -> numOk k z -> z mod 2 ^ 32 = 0 -> cast Kbool (toNumeric k z) = Some 0.
Proof. intros k z [<-|[<-|[]]] _ H; cbn [toNumeric cast castInt]; unfold u32; rewrite H; reflexivity. Qed.
Print Assumptions C73_bool_refuted.
Example C73_bool_ex : numOk KU64 (2 ^ 32) /\ cast Kbool (toNumeric KU64 (2 ^ 32)) = Some 0 /\ cast Kbool (toNumeric KU64 1) = Some 1.
Proof. split; [split; [intros []|cbn; lia]|split; reflexivity]. Qed.
