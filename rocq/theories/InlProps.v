(* C94: everything that is reflected is in exactly one generated file, and the files say what was reflected. *)
From Coq Require Import String.
From Verif Require Import Base Txt InlModel InlSpec InlProofs.
Local Open Scope string_scope.
Local Open Scope list_scope.
Local Open Scope Z_scope.
Local Notation length := List.length.

(** C94. There is one file for every path that something has, and no other. *)
Theorem C94_files : forall cs es ss,
  NoDup (map fst (generateAll cs es ss)) /\
  forall p, In p (map fst (generateAll cs es ss)) <-> In p (map cInl cs ++ map eInl es ++ map sInl ss).
Proof.
  intros cs es ss. unfold generateAll.
  destruct (fold_holds cInl writeClass cs [] [] (NoDup_nil _)) as (A1 & _ & A3).
  destruct (fold_holds eInl writeEnum es _ [] A1) as (B1 & _ & B3).
  destruct (fold_holds sInl writeSwitch ss _ [] B1) as (C1 & _ & C3).
  split; [exact C1|]. intros p. rewrite C3, B3, A3, !in_app_iff. cbn [map In]. tauto.
Qed.
Print Assumptions C94_files.

(** C94. A file holds what has its path: classes, enumerations and switches, each in the order they were found; and
    it says their names, members, enumerators without a last [Count], and states. *)
Theorem C94_contents : forall cs es ss p t, In (p, t) (generateAll cs es ss) ->
  exists ens, Forall2 (fun e x => exists is, ids (enumerators e) is /\ x = AnEnum (prefix e) (eName e) is)
                (filter (fun e => bytes_eqb (eInl e) p) es) ens /\
  t = flat_map (fun x => textOf (lines x))
        (map ofClass (filter (fun c => bytes_eqb (cInl c) p) cs) ++ ens ++ map ofSwitch (filter (fun s => bytes_eqb (sInl s) p) ss)).
Proof.
  intros cs es ss p t H. unfold generateAll in H.
  destruct (fold_holds cInl writeClass cs [] p (NoDup_nil _)) as (A1 & A2 & _).
  destruct (fold_holds eInl writeEnum es _ p A1) as (B1 & B2 & _).
  destruct (fold_holds sInl writeSwitch ss _ p B1) as (C1 & C2 & _).
  apply (holds_in _ _ _ C1) in H. rewrite C2, B2, A2 in H. clear - H. cbn [holds flat_map app] in H. 
  set (fc := filter (fun x => bytes_eqb (cInl x) p) cs) in *. set (fe := filter (fun x => bytes_eqb (eInl x) p) es) in *.
  set (fs := filter (fun x => bytes_eqb (sInl x) p) ss) in *.
  assert (E1 : forall l, flat_map writeClass l = flat_map (fun x => textOf (lines x)) (map ofClass l)).
  { induction l as [|x l IH]; [reflexivity|]. cbn [flat_map map]. now rewrite IH, class_text. }
  assert (E3 : forall l, flat_map writeSwitch l = flat_map (fun x => textOf (lines x)) (map ofSwitch l)).
  { induction l as [|x l IH]; [reflexivity|]. cbn [flat_map map]. now rewrite IH, switch_text. }
  assert (E2 : exists ens, Forall2 (fun e x => exists is, ids (enumerators e) is /\ x = AnEnum (prefix e) (eName e) is) fe ens /\
    flat_map writeEnum fe = flat_map (fun x => textOf (lines x)) ens).
  { clear H. clearbody fe. induction fe as [|x l IH]; [exists []; split; [constructor|reflexivity]|].
    destruct IH as (ens & H1 & H2). destruct (ids_some (enumerators x)) as [is Hi].
    exists (AnEnum (prefix x) (eName x) is :: ens). split; [constructor; [now exists is|exact H1]|]. cbn [flat_map]. now rewrite H2, (enum_text x is Hi). }
  destruct E2 as (ens & H1 & H2). exists ens. split; [exact H1|]. rewrite !flat_map_app, <- E1, <- E3, <- H2, app_assoc. symmetry. exact H.
Qed.
Print Assumptions C94_contents.
Example C94_case : generateAll
    [Class (txt "a.inl") (txt "A") [txt "x"; txt "y"]; Class (txt "b.inl") (txt "B") []]
    [Enum (txt "a.inl") (txt "n") (txt "E") [txt "Count"; txt "Two"; txt "Count"]] [] =
  [(txt "a.inl", textOf (lines (AClass (txt "A") [txt "x"; txt "y"])) ++ textOf (lines (AnEnum (txt "n") (txt "E") [txt "Count"; txt "Two"])));
   (txt "b.inl", textOf (lines (AClass (txt "B") [])))].
Proof. reflexivity. Qed.

(** C94. Nothing is lost: the text of a file determines what was reflected. *)
Theorem C94_lossless : forall a b, Forall thing_ok a -> Forall thing_ok b ->
  flat_map (fun x => textOf (lines x)) a = flat_map (fun x => textOf (lines x)) b -> a = b.
Proof. exact things_inj. Qed.
Print Assumptions C94_lossless.
Example C94_lossless_case : Forall thing_ok [ASwitch (txt "a::S") [txt "One"; txt "Two"] true; AClass (txt "A") [txt "x"]].
Proof.
  assert (H : forall s, existsb (fun c => (c =? 10) || (c =? 44) || (c =? 41)) s = false -> name_ok s).
  { intros s Hs. assert (N : forall c, (c =? 10) || (c =? 44) || (c =? 41) = true -> ~ In c s).
    { intros c Hc Hi. assert (existsb (fun c => (c =? 10) || (c =? 44) || (c =? 41)) s = true); [|congruence]. apply existsb_exists. now exists c. }
    split; [now apply N|split; now apply N]. }
  constructor; [split; [now apply H|constructor; [now apply H|constructor; [now apply H|constructor]]]|].
  constructor; [split; [now apply H|constructor; [now apply H|constructor]]|constructor].
Qed.

(** C94. The numbers of states in the two files that are generated for a switch agree: the state that is the i-th in
    the enumeration of identifiers is the i-th in the table. *)
Theorem C94_numbered : forall s inl, getSwitchInl s = Some inl ->
  exists l l', inl = textOf l /\ writeSwitch s = textOf l' /\
  (forall i st, nth_error (states s) i = Some st ->
     nth_error l (S i) = Some (txt "    " ++ st ++ txt ",") /\
     nth_error l' (S i) = Some (call (txt "SWITCH_TABLE_STATE") (sName s ++ txt ", " ++ st))) /\
  nth_error l (S (length (states s))) = Some (txt "    Count,").
Proof.
  intros s inl H. unfold getSwitchInl in H. destruct (states s) as [|first r] eqn:E; [discriminate|]. rewrite <- E in *. injection H as <-.
  exists ([txt "enum class ID : u16 {"] ++ map (fun st => txt "    " ++ st ++ txt ",") (states s)
      ++ [txt "    Count,"; txt "};"; txt "union Storage_ {"] ++ map (fun st => txt "    " ++ st ++ txt " " ++ memberName st ++ txt ";") (states s)
      ++ [txt "    PLY_INLINE Storage_() {}"; txt "    PLY_INLINE ~Storage_() {}"; txt "};"; txt "SWITCH_FOOTER(" ++ lastPart (sName s) [] ++ txt ", " ++ first ++ txt ")"]
      ++ map (fun st => txt "SWITCH_ACCESSOR(" ++ st ++ txt ", " ++ memberName st ++ txt ")") (states s)
      ++ (if isReflected s then [txt "PLY_SWITCH_REFLECT()"] else [])), (lines (ofSwitch s)).
  split; [|split; [apply switch_text|split]].
  - rewrite !textOf_app, !textOf_map. unfold textOf. cbn [flat_map].
    rewrite (flat_ext (fun x => (txt "    " ++ x ++ txt ",") ++ [10]) (fun st => txt "    " ++ st ++ txt "," ++ nl)) by (intros; now rewrite <- !app_assoc).
    rewrite (flat_ext (fun x => (txt "    " ++ x ++ txt " " ++ memberName x ++ txt ";") ++ [10]) (fun st => txt "    " ++ st ++ txt " " ++ memberName st ++ txt ";" ++ nl)) by (intros; now rewrite <- !app_assoc).
    rewrite (flat_ext (fun x => (txt "SWITCH_ACCESSOR(" ++ x ++ txt ", " ++ memberName x ++ txt ")") ++ [10]) (fun st => txt "SWITCH_ACCESSOR(" ++ st ++ txt ", " ++ memberName st ++ txt ")" ++ nl)) by (intros; now rewrite <- !app_assoc).
    destruct (isReflected s); cbn [flat_map]; rewrite ?app_nil_r, <- ?app_assoc; reflexivity.
  - intros i st Hi. assert (Hl : (i < length (states s))%nat) by (apply nth_error_Some; congruence).
    cbn [app nth_error lines ofSwitch]. split.
    + rewrite nth_error_app1 by now rewrite map_length. exact (map_nth_error (fun st => txt "    " ++ st ++ txt ",") i (states s) Hi).
    + rewrite nth_error_app1 by now rewrite map_length. exact (map_nth_error (fun x => call (txt "SWITCH_TABLE_STATE") (sName s ++ txt ", " ++ x)) i (states s) Hi).
  - cbn [app nth_error]. rewrite nth_error_app2 by now rewrite map_length. rewrite map_length, Nat.sub_diag. reflexivity.
Qed.
Print Assumptions C94_numbered.
Example C94_numbered_case : exists inl, getSwitchInl (Switch (txt "s.inl") (txt "a::S") [txt "One"; txt "Two"] true) = Some inl.
Proof. eexists. reflexivity. Qed.

(** C94 would have every switch generated. One without states reads past the end of an array. *)
Theorem C94_stateless_refuted : forall s, states s = [] -> getSwitchInl s = None.
Proof. intros s H. unfold getSwitchInl. now rewrite H. Qed.
Print Assumptions C94_stateless_refuted.

(** C94 would have members of different states told apart. They are not when states differ in the case of their first
    letter only. *)
Theorem C94_member_refuted : forall r, (txt "A" ++ r <> txt "a" ++ r) /\ memberName (txt "A" ++ r) = memberName (txt "a" ++ r).
Proof. intros r. split; [intros H; apply app_inv_tail in H; discriminate|reflexivity]. Qed.
Print Assumptions C94_member_refuted.
