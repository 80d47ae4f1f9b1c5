(* C76: what is saved as Pylon is loaded as the same object. *)
From Coq Require Import Lia ZifyBool ZifyNat String.
From Verif Require Import PersistModel.
From Verif Require Import Txt PylonReflectModel PylonReflectSpec PylonReflectProofs PylonReflectSafe PylonProofs PylonProps.
Local Open Scope string_scope.
Local Open Scope list_scope.
Local Open Scope Z_scope.
Local Notation length := List.length.

(** An object that can be saved is saved, and what is saved gives the same object when it is imported onto any object of the
    type: a new one, or one that has other contents. Missing: the objects that are not [savable]; see below. *)
Theorem C76_saved_is_loaded_partial : forall env number fresh t o, constructors_ok env fresh -> savable env t o ->
  exists n, exportObj env noFilter t o = Some n /\
  exists depth, forall f old, (depth <= f)%nat -> fits env t old -> convertFrom env number fresh f t old n = Got o.
Proof. intros env number fresh t o Cok. exact (saved_is_loaded env number fresh Cok t o). Qed.
Print Assumptions C76_saved_is_loaded_partial.

(** The same through the text of a file. Missing: texts that are not read back (C37). *)
Theorem C76_through_text_partial : forall env number fresh t o, constructors_ok env fresh -> savable env t o -> texts_ok env t o ->
  exists n m, exportObj env noFilter t o = Some n /\ parse (toString n) = Ok (Some m) /\
  exists depth, forall f old, (depth <= f)%nat -> fits env t old -> convertFrom env number fresh f t old m = Got o.
Proof.
  intros env number fresh t o Cok Sv Tx. destruct (saved_is_loaded env number fresh Cok t o Sv) as (n & E & D).
  exists n, n. split; [assumption|]. split; [|assumption]. apply pylon_roundtrip. exact (exported_tree env number fresh Cok t o n Sv Tx E).
Qed.
Print Assumptions C76_through_text_partial.

(** What was saved by one version of a program is loaded by another one that has other members in the same struct: the members
    that both have come from the file, the others of the object are left as they are, and unknown ones are ignored. *)
Theorem C76_other_version : forall env number fresh i j name1 params1 ms1 name2 params2 ms2 l old new,
  constructors_ok env fresh ->
  nth_error env i = Some (TStruct name1 params1 ms1) -> nth_error env j = Some (TStruct name2 params2 ms2) ->
  savable env (PUser i) (OSeq l) -> fits env (PUser j) (OSeq old) -> length new = length ms2 ->
  (forall k name t, nth_error ms2 k = Some (name, t) ->
     (exists m, nth_error ms1 m = Some (name, t) /\ nth_error new k = nth_error l m) \/
     (~ In name (map fst ms1) /\ nth_error new k = nth_error old k)) ->
  exists n, exportObj env noFilter (PUser i) (OSeq l) = Some n /\
  exists depth, forall f, (depth <= f)%nat -> convertFrom env number fresh f (PUser j) (OSeq old) n = Got (OSeq new).
Proof. intros env number fresh i j name1 params1 ms1 name2 params2 ms2 l old new Cok. exact (other_version env number fresh Cok i j name1 params1 ms1 name2 params2 ms2 l old new). Qed.
Print Assumptions C76_other_version.

(** BuildFolder.cpp:71-97: a further item is added to the node before it is written, and is found again. *)
Theorem C76_build_folder_partial : forall env number fresh i name params ms l key sig, constructors_ok env fresh ->
  nth_error env i = Some (TStruct name params ms) -> savable env (PUser i) (OSeq l) -> ~ In key (map fst ms) ->
  texts_ok env (PUser i) (OSeq l) -> text_ok key -> tree_ok sig -> (length ms < 64)%nat ->
  exists its read, exportObj env noFilter (PUser i) (OSeq l) = Some (Object its) /\
  parse (toString (Object (setItem key sig its))) = Ok (Some (Object read)) /\ getItem key read = Some sig /\
  exists depth, forall f old, (depth <= f)%nat -> fits env (PUser i) old -> convertFrom env number fresh f (PUser i) old (Object read) = Got (OSeq l).
Proof.
  intros env number fresh i name params ms l key sig Cok E Sv Nk Tx Hk Hs Le.
  destruct (with_extra env number fresh Cok i name params ms l key sig E Sv Nk) as (its & X1 & X2 & X3 & X4).
  exists its, (setItem key sig its). split; [assumption|]. split; [apply pylon_roundtrip; now apply X4|]. split; assumption.
Qed.
Print Assumptions C76_build_folder_partial.

(** Importing ends for every node, type and object. *)
Theorem C76_import_ends : forall env number fresh n, exists depth, forall f t o, (depth <= f)%nat -> convertFrom env number fresh f t o n <> Deep.
Proof. exact import_ends. Qed.
Print Assumptions C76_import_ends.

(** Whatever the node is: when importing succeeds, the object is an object of its type. *)
Theorem C76_import_keeps_type : forall env number fresh f t o n o', types_ok env -> all_constructed env fresh ->
  fits env t o -> convertFrom env number fresh f t o n = Got o' -> fits env t o'.
Proof. intros env number fresh f t o n o' Tok Fok. exact (import_fits env number fresh Tok Fok f t o n o'). Qed.
Print Assumptions C76_import_keeps_type.

(** A table of contents with everything: a struct of a string, a bool, an enum with two names for one value, an array of owned
    structs of the same type, and a switch. *)
Definition types : list tdesc :=
  [ TStruct (txt "Contents") [] [(txt "title", PString); (txt "open", PNum Kbool); (txt "kind", PUser 2); (txt "children", PUser 1); (txt "link", PUser 4)];
    TArray (PUser 3);
    TEnum (txt "Kind") 1 [(txt "Page", 0); (txt "Sheet", 0); (txt "Chapter", 200)];
    TOwned (PUser 0);
    TSwitch (txt "Link") [(txt "None", 5%nat); (txt "Url", 6%nat)];
    TStruct (txt "None") [] [];
    TStruct (txt "Url") [] [(txt "target", PString)] ].
Definition made (t : tptr) : obj :=
  match t with
  | PNum _ => OUnset
  | PString => OStr []
  | PUser 0 => OSeq [OStr []; ONum 1; OUnset; OArr []; OSwitch 0 (OSeq [])]
  | PUser 1 => OArr []
  | PUser 3 => ONull
  | PUser 4 => OSwitch 0 (OSeq [])
  | PUser 5 => OSeq []
  | PUser 6 => OSeq [OStr []]
  | PUser _ => OUnset
  end.
Definition leaf : obj := OSeq [OStr (txt "a"); ONum 0; ONum 200; OArr []; OSwitch 1 (OSeq [OStr (txt "x.html")])].
Definition book : obj := OSeq [OStr (txt "Book"); ONum 1; ONum 0; OArr [OOwn leaf; OOwn leaf]; OSwitch 0 (OSeq [])].
Definition other : obj := OSeq [OStr (txt "old"); OUnset; ONum 7; OArr [ONull; OOwn (made (PUser 0)); ONull]; OSwitch 1 (OSeq [OStr []])].

Lemma made_all : all_constructed types made.
Proof.
  intros [k| |i] K; cbn [made known] in *; [apply ft_unset; exact I|apply ft_string|].
  assert (fits types (PUser 5) (OSeq [])) as F5 by (eapply ft_struct; [reflexivity|constructor]).
  assert (fits types (PUser 4) (OSwitch 0 (OSeq []))) as F4 by (eapply ft_switch; [reflexivity|reflexivity|exact F5]).
  destruct i as [|[|[|[|[|[|[|i]]]]]]]; [..|cbn in K; lia].
  - eapply ft_struct; [reflexivity|]. cbn [map snd]. repeat constructor; try exact F4.
    + cbn. repeat eexists.
    + eapply ft_array; [reflexivity|constructor].
  - eapply ft_array; [reflexivity|constructor].
  - apply ft_unset. repeat eexists.
  - eapply ft_null. reflexivity.
  - exact F4.
  - exact F5.
  - eapply ft_struct; [reflexivity|]. repeat constructor.
Qed.
Lemma made_ok : constructors_ok types made.
Proof.
  intros t o F. apply made_all. destruct t as [| |i]; cbn [known]; try exact I. apply nth_error_Some.
  inversion F as [? Hu| | | | | | | | | | |]; subst; try congruence. destruct Hu as (? & ? & ? & Hu). congruence.
Qed.
Lemma types_fine : types_ok types.
Proof.
  intros i d t E R. destruct i as [|[|[|[|[|[|[|i]]]]]]]; [..|now destruct i]; cbn [nth_error types] in E; injection E as <-; cbn in R; try contradiction.
  - repeat (destruct R as [<-|R]); cbn; lia || contradiction.
  - subst. cbn. lia.
  - subst. cbn. lia.
  - destruct R as (st & k & [Q|[Q|[]]] & ->); injection Q as <- <-; cbn; lia.
  - destruct R as [<-|[]]. exact I.
Qed.

Lemma text_ascii (s : list Z) : forallb (fun b => (32 <=? b) && (b <? 128)) s = true -> text_ok s.
Proof. intro H. apply (ascii_ok (fun _ _ => None)). apply Forall_forall. intros x Hx. rewrite forallb_forall in H. specialize (H x Hx). cbv beta in H. lia. Qed.
Lemma names_ok (l : list (list Z)) : forallb (forallb (fun b => (32 <=? b) && (b <? 128))) l = true -> Forall text_ok l.
Proof. intro H. apply Forall_forall. intros x Hx. rewrite forallb_forall in H. apply text_ascii. exact (H x Hx). Qed.
Lemma leaf_savable : savable types (PUser 0) leaf.
Proof.
  eapply sv_struct; [reflexivity| |].
  - cbn [map fst]. repeat (constructor; [cbn; intuition discriminate|]). constructor.
  - cbn [map snd]. constructor; [apply sv_string|]. constructor; [apply (sv_bool _ false)|]. constructor.
    { eapply sv_enum with (id := txt "Chapter"); [reflexivity|cbn; auto| |cbn; auto|cbn; lia].
      cbn [map fst]. repeat (constructor; [cbn; intuition discriminate|]). constructor. }
    constructor; [eapply sv_array; [reflexivity|constructor]|]. constructor; [|constructor].
    eapply sv_switch; [reflexivity| |reflexivity|].
    + cbn [map fst]. repeat (constructor; [cbn; intuition discriminate|]). constructor.
    + eapply sv_struct; [reflexivity| |].
      * cbn [map fst]. repeat (constructor; [cbn; intuition discriminate|]). constructor.
      * repeat constructor.
Qed.
Lemma book_savable : savable types (PUser 0) book.
Proof.
  eapply sv_struct; [reflexivity| |].
  - cbn [map fst]. repeat (constructor; [cbn; intuition discriminate|]). constructor.
  - cbn [map snd]. constructor; [apply sv_string|]. constructor; [apply (sv_bool _ true)|]. constructor.
    { eapply sv_enum with (id := txt "Sheet"); [reflexivity|cbn; auto| |cbn; auto|cbn; lia].
      cbn [map fst]. repeat (constructor; [cbn; intuition discriminate|]). constructor. }
    constructor.
    { eapply sv_array; [reflexivity|]. cbn [List.length repeat].
      assert (savable types (PUser 3) (OOwn leaf)) as L.
      { eapply sv_owned; [reflexivity| |exact leaf_savable]. intros j Q. injection Q as <-. eexists. split; [reflexivity|exact I]. }
      repeat (constructor; [exact L|]). constructor. }
    constructor; [|constructor]. eapply sv_switch; [reflexivity| |reflexivity|].
    + cbn [map fst]. repeat (constructor; [cbn; intuition discriminate|]). constructor.
    + eapply sv_struct; [reflexivity|constructor|constructor].
Qed.
Lemma other_fits : fits types (PUser 0) other.
Proof.
  eapply ft_struct; [reflexivity|]. cbn [map snd]. constructor; [constructor|]. constructor; [apply ft_unset; exact I|].
  constructor; [eapply ft_enum; reflexivity|]. constructor.
  - eapply ft_array; [reflexivity|]. constructor; [eapply ft_null; reflexivity|]. constructor; [|constructor; [eapply ft_null; reflexivity|constructor]].
    eapply ft_owned; [reflexivity|]. apply made_all. cbn. lia.
  - constructor; [|constructor]. eapply ft_switch; [reflexivity|reflexivity|]. eapply ft_struct; [reflexivity|]. repeat constructor.
Qed.
Example C76_ex : constructors_ok types made /\ savable types (PUser 0) book /\ fits types (PUser 0) other /\
  exists n, exportObj types noFilter (PUser 0) book = Some n /\ parse (toString n) = Ok (Some n) /\
  convertFrom types (fun _ _ => None) made 9 (PUser 0) other n = Got book.
Proof.
  split; [exact made_ok|]. split; [exact book_savable|]. split; [exact other_fits|].
  destruct (exportObj types noFilter (PUser 0) book) as [n|] eqn:E; [|vm_compute in E; discriminate].
  exists n. split; [reflexivity|]. vm_compute in E. injection E as <-. split; vm_compute; reflexivity.
Qed.
Lemma leaf_texts : texts_ok types (PUser 0) leaf.
Proof.
  eapply tx_struct; [reflexivity| |cbn; lia|].
  - apply names_ok. reflexivity.
  - cbn [map snd]. constructor; [apply tx_string, text_ascii; reflexivity|]. constructor; [apply tx_num|]. constructor.
    { eapply tx_enum; [reflexivity|]. apply names_ok. reflexivity. }
    constructor; [eapply tx_array; [reflexivity|constructor]|]. constructor; [|constructor].
    eapply tx_switch; [reflexivity|reflexivity|apply text_ascii; reflexivity|].
    eapply tx_struct; [reflexivity| |cbn; lia|].
    + apply names_ok. reflexivity.
    + cbn [map snd]. constructor; [apply tx_string, text_ascii; reflexivity|constructor].
Qed.
Lemma book_texts : texts_ok types (PUser 0) book.
Proof.
  eapply tx_struct; [reflexivity| |cbn; lia|].
  - apply names_ok. reflexivity.
  - cbn [map snd]. constructor; [apply tx_string, text_ascii; reflexivity|]. constructor; [apply tx_num|]. constructor.
    { eapply tx_enum; [reflexivity|]. apply names_ok. reflexivity. }
    constructor.
    { eapply tx_array; [reflexivity|].
      assert (texts_ok types (PUser 3) (OOwn leaf)) as L by (eapply tx_owned; [reflexivity|exact leaf_texts]).
      repeat (constructor; [exact L|]). constructor. }
    constructor; [|constructor]. eapply tx_switch; [reflexivity|reflexivity|apply text_ascii; reflexivity|].
    eapply tx_struct; [reflexivity|constructor|cbn; lia|constructor].
Qed.
Example C76_text_ex : constructors_ok types made /\ savable types (PUser 0) book /\ texts_ok types (PUser 0) book.
Proof. split; [exact made_ok|]. split; [exact book_savable|exact book_texts]. Qed.
(** The signature of a build folder; its key is no member. *)
Example C76_build_folder_ex : exists ms, nth_error types 0 = Some (TStruct (txt "Contents") [] ms) /\
  ~ In (txt "buildSystemSignature") (map fst ms) /\ text_ok (txt "buildSystemSignature") /\
  tree_ok (Object [(txt "a", Text (txt "b"))]) /\ (length ms < 64)%nat.
Proof.
  eexists. split; [reflexivity|]. split; [cbn; intuition discriminate|]. split; [apply text_ascii; reflexivity|]. split; [|cbn; lia].
  constructor.
  - intros k x [Q|[]]. injection Q as <- <-. apply text_ascii. reflexivity.
  - intros k x [Q|[]]. injection Q as <- <-. constructor. apply text_ascii. reflexivity.
  - cbn [map fst]. constructor; [intros []|constructor].
  - cbn. lia.
Qed.
(** The other version of a struct has no title, and a size. *)
Definition versions : list tdesc :=
  [ TStruct (txt "Old") [] [(txt "title", PString); (txt "open", PNum Kbool)]; TStruct (txt "New") [] [(txt "size", PNum KU32); (txt "open", PNum Kbool)] ].
Example C76_version_ex : exists n depth,
  exportObj versions noFilter (PUser 0) (OSeq [OStr (txt "T"); ONum 1]) = Some n /\
  forall f, (depth <= f)%nat ->
  convertFrom versions (fun _ _ => None) (fun t => match t with PUser 0 => OSeq [OStr []; ONum 0] | PUser _ => OSeq [ONum 0; ONum 0] | PString => OStr [] | _ => ONum 0 end) f
    (PUser 1) (OSeq [ONum 77; ONum 0]) n = Got (OSeq [ONum 77; ONum 1]).
Proof.
  set (mk := fun t => match t with PUser 0 => OSeq [OStr []; ONum 0] | PUser _ => OSeq [ONum 0; ONum 0] | PString => OStr [] | _ => ONum 0 end).
  assert (constructors_ok versions mk) as Cok.
  { intros [k| |i] o F; [apply ft_num|apply ft_string|]. destruct i as [|[|i]].
    - eapply ft_struct; [reflexivity|]. repeat constructor.
    - eapply ft_struct; [reflexivity|]. repeat constructor.
    - exfalso. assert (nth_error versions (S (S i)) = None) as N by now destruct i.
      inversion F as [? Hu| | | | | | | | | | |]; subst; try congruence. destruct Hu as (? & ? & ? & Hu). congruence. }
  destruct (C76_other_version versions (fun _ _ => None) mk 0 1 (txt "Old") [] [(txt "title", PString); (txt "open", PNum Kbool)]
    (txt "New") [] [(txt "size", PNum KU32); (txt "open", PNum Kbool)] [OStr (txt "T"); ONum 1] [ONum 77; ONum 0] [ONum 77; ONum 1] Cok) as (n & E & d & D).
  - reflexivity.
  - reflexivity.
  - eapply sv_struct; [reflexivity| |].
    + cbn [map fst]. repeat (constructor; [cbn; intuition discriminate|]). constructor.
    + constructor; [apply sv_string|]. constructor; [apply (sv_bool _ true)|constructor].
  - eapply ft_struct; [reflexivity|]. repeat constructor.
  - reflexivity.
  - intros [|[|k]] name t Q; cbn in Q.
    + injection Q as <- <-. right. split; [cbn; intuition discriminate|reflexivity].
    + injection Q as <- <-. left. exists 1%nat. split; reflexivity.
    + now destruct k.
  - exists n, d. split; [exact E|exact D].
Qed.
Example C76_types_ex : types_ok types /\ all_constructed types made.
Proof. split; [exact types_fine|exact made_all]. Qed.

(** False of the code: *)
(** Numbers can be imported but not exported: the export fails an assertion for every number type but bool. So do raw pointers,
    fixed arrays and arrays indexed by an enum. *)
Theorem C76_numbers_refuted : forall env k z, k <> Kbool -> exportObj env noFilter (PNum k) (ONum z) = None.
Proof. intros env k z H. destruct k; reflexivity || congruence. Qed.
Print Assumptions C76_numbers_refuted.
Theorem C76_arrays_refuted : forall env i n item e l,
  nth_error env i = Some (TFixed n item) \/ nth_error env i = Some (TEnumArray item e) -> exportObj env noFilter (PUser i) (OSeq l) = None.
Proof. intros env i n item e l [E|E]; cbn [exportObj noFilter]; rewrite E; reflexivity. Qed.
Print Assumptions C76_arrays_refuted.
(** A null pointer is followed. *)
Theorem C76_null_refuted : forall env i target, nth_error env i = Some (TOwned target) -> exportObj env noFilter (PUser i) ONull = None.
Proof. intros env i target E. cbn [exportObj noFilter]. rewrite E. reflexivity. Qed.
Print Assumptions C76_null_refuted.
(** An enum value that has no identifier reads through a null pointer. *)
Theorem C76_enum_refuted : forall env i name bytes ids v, nth_error env i = Some (TEnum name bytes ids) -> ~ In v (map snd ids) ->
  exportObj env noFilter (PUser i) (ONum v) = None.
Proof.
  intros env i name bytes ids v E H. cbn [exportObj noFilter]. rewrite E. destruct (enumSize bytes); [|reflexivity].
  replace (findValue ids v) with (@None (list Z)); [reflexivity|]. unfold findValue. clear E.
  induction ids as [|[a b] ids IH]; [reflexivity|]. cbn [find snd map In] in *. replace (b =? v) with false by lia. apply IH; intuition.
Qed.
Print Assumptions C76_enum_refuted.
(** A file with a struct where something else is, or with an identifier that the enum does not have (saved by a newer version),
    fails an assertion. *)
Theorem C76_shape_refuted : forall env number fresh f i name params ms o n, nth_error env i = Some (TStruct name params ms) ->
  (forall l, n <> Object l) -> convertFrom env number fresh (S f) (PUser i) o n = Fails.
Proof. intros env number fresh f i name params ms o n E H. cbn [convertFrom]. rewrite E. destruct n; try reflexivity. exfalso. eapply H. reflexivity. Qed.
Print Assumptions C76_shape_refuted.
Theorem C76_new_identifier_refuted : forall env number fresh f i name bytes ids o s, nth_error env i = Some (TEnum name bytes ids) ->
  ~ In s (map fst ids) -> convertFrom env number fresh (S f) (PUser i) o (Text s) = Fails.
Proof.
  intros env number fresh f i name bytes ids o s E H. cbn [convertFrom]. rewrite E. unfold enumValue.
  destruct (find _ ids) as [[a v]|] eqn:F; [|reflexivity]. exfalso. apply H. apply find_some in F. destruct F as [F1 F2]. cbn [fst] in F2.
  apply leb_eq in F2. subst. apply in_map_iff. now exists (s, v).
Qed.
Print Assumptions C76_new_identifier_refuted.
(** Malformed strings and bools are not reported: a list for a string leaves the old one, and all texts but "true" are false. *)
Theorem C76_unreported_refuted : forall env number fresh f o l,
  convertFrom env number fresh (S f) PString o (Array l) = Got o /\
  convertFrom env number fresh (S f) (PNum Kbool) o (Array l) = Got (ONum 0) /\
  forall s, s <> txt "true" -> convertFrom env number fresh (S f) (PNum Kbool) o (Text s) = Got (ONum 0).
Proof. intros. split; [reflexivity|]. split; [reflexivity|]. intros s H. cbn [convertFrom]. rewrite leb_neq; [reflexivity|exact H]. Qed.
Print Assumptions C76_unreported_refuted.

(** Importing into a new object: what was saved is imported as it was when its type can be created, and nothing is
    imported when it cannot. *)
Theorem C76_import_new_partial : forall env number fresh t, constructors_ok env fresh -> all_constructed env fresh ->
  (creatable env t = true -> forall o, savable env t o -> exists n, exportObj env noFilter t o = Some n /\
     exists depth, forall f, (depth <= f)%nat -> import env number fresh f t n = Got o) /\
  (match t with PUser i => forall name params ms states, nth_error env i <> Some (TStruct name params ms) /\ nth_error env i <> Some (TSwitch name states)
              | _ => False end -> forall f n, import env number fresh f t n = Fails).
Proof.
  intros env number fresh t Cok Aok. split.
  - intros C o Sv. destruct (saved_is_loaded env number fresh Cok t o Sv) as (n & E & depth & D). exists n. split; [exact E|].
    exists depth. intros f Hf. unfold import. rewrite C. apply D; [exact Hf|]. apply Aok. unfold known. destruct t as [k| |i]; auto.
    unfold creatable in C. destruct (nth_error env i) eqn:N; [|discriminate]. apply nth_error_Some. congruence.
  - intros H f n. unfold import, creatable. destruct t as [k| |i]; [destruct H|destruct H|].
    destruct (nth_error env i) as [d|]; [|reflexivity].
    destruct d; try reflexivity; exfalso; [eapply (proj1 (H _ _ _ [])); reflexivity|eapply (proj2 (H _ [] [] _)); reflexivity].
Qed.
Print Assumptions C76_import_new_partial.
Example C76_import_new_ex : creatable types (PUser 0) = true /\ creatable types (PUser 1) = false /\ forall f n number, import types number made f (PUser 1) n = Fails.
Proof. split; [reflexivity|]. split; reflexivity. Qed.

(** The items of an object: what is set is got, under its key and no other, and the keys stay distinct. *)
Theorem C76_items : forall k v l, getItem k (setItem k v l) = Some v /\
  (forall k', k' <> k -> getItem k' (setItem k v l) = getItem k' l) /\
  (NoDup (map fst l) -> NoDup (map fst (setItem k v l))) /\ (forall k', In k' (map fst (setItem k v l)) <-> k' = k \/ In k' (map fst l)).
Proof.
  intros k v l.
  assert (I : forall k', In k' (map fst (setItem k v l)) <-> k' = k \/ In k' (map fst l)).
  { intros k'. induction l as [|[a b] l IH]; cbn [setItem map fst In]; [intuition congruence|].
    destruct (list_eqb a k) eqn:E; cbn [map fst In]; [apply leb_eq in E; subst a; intuition congruence|]. rewrite IH. intuition congruence. }
  split; [|split; [|split; [|exact I]]].
  - clear I. induction l as [|[a b] l IH]; cbn [setItem getItem]; [rewrite leb_refl; reflexivity|].
    destruct (list_eqb a k) eqn:E; cbn [getItem]; rewrite E; auto.
  - clear I. intros k' N. induction l as [|[a b] l IH]; cbn [setItem getItem]; [rewrite leb_neq by congruence; reflexivity|].
    destruct (list_eqb a k) eqn:E; cbn [getItem]; [|rewrite IH; reflexivity]. apply leb_eq in E. subst a. rewrite leb_neq by congruence. reflexivity.
  - clear I. induction l as [|[a b] l IH]; cbn [setItem map fst]; intros H; [constructor; [intros []|constructor]|].
    inversion H as [|? ? H1 H2]; subst. destruct (list_eqb a k) eqn:E; cbn [map fst]; [exact H|]. constructor; [|apply IH, H2].
    intros X. apply H1. clear IH H H1 H2. revert X. induction l as [|[c d] l IH]; cbn [setItem map fst In].
    + intros [X|[]]. subst a. rewrite leb_refl in E. discriminate.
    + destruct (list_eqb c k); cbn [map fst In]; [auto|]. intros [X|X]; [auto|right; apply IH, X].
Qed.
Print Assumptions C76_items.
Example C76_items_ex : getItem [1] (setItem [1] (Text [7]) [([2], Text [8]); ([1], Text [9])]) = Some (Text [7]).
Proof. reflexivity. Qed.
