(* Properties of build targets and their dependencies (C43, C60). *)
From Coq Require Import String.
From Verif Require Import Txt BuildModel BuildSpec BuildProofs InstSpec InstProofs.

(** A program (0) that uses a library (1) privately and one (2) publicly; 2 uses 1 publicly and an extern (3) that is installed;
    4 is not selected. *)
Definition shop (s : nat) : source :=
  match s with
  | 0%nat => STarget (txt "app") [CType EXE; CDep Private 1; CInc Private (txt "app"); CDep Public 2; CDep Public 4; CSources]
  | 1%nat => STarget (txt "core") [CInc Public (txt "core"); CDef Public (txt "X") (txt "1"); CSources]
  | 2%nat => STarget (txt "gui") [CDef Private (txt "Y") (txt "1"); CDep Public 1; CDep Private 3; CDef Private (txt "Y") (txt "2"); CInc Public (txt "gui"); CSources]
  | 3%nat => SExtern (Some (7%nat, Some (mkdep [] false false [] [txt "ext"] [] [txt "ext.a"] [] [] [] None)))
  | _ => SExtern None
  end.
Definition built : list entry := match instantiateRoots shop 9 noInst [(0%nat, false)] with Ok st => entries st | _ => [] end.
Definition names (o : option dep) : option (text * list (vis * nat)) := match o with Some n => match tgt n with Some t => Some (tname t, deps n) | None => None end | None => None end.

(** C43. What each target gets, for every graph without loops: [handed] in BuildSpec.v. It is completed unless an assertion fails, which
    is when some target is not [linkable]; and there are messages about clashing definitions exactly if a definition has two values. *)
Theorem C43_handed : forall ns fuel, closed ns -> fresh ns -> keyed ns -> acyclic ns -> (length ns <= fuel)%nat ->
  match propagateAll fuel (mkworld ns []) with
  | Deep => False
  | Crash => ~ forall d, linkable ns d
  | Ok w => (forall d, linkable ns d) /\ (errors w = [] <-> forall d, consistent ns d) /\
      forall d, match node ns d, node (nodes w) d with Some n, Some n' => handed ns d n n' | None, None => True | _, _ => False end
  end.
Proof. exact (fun ns fuel Hc Hf Hk => propagateAll_ok ns Hc Hf Hk fuel). Qed.
Print Assumptions C43_handed.
(** C43. These conditions hold of whatever is instantiated. *)
Theorem C43_project : forall env U fuel rs st, (forall s c, In s U -> needs env s c -> In c U) -> (length U < fuel)%nat -> (forall s b, In (s, b) rs -> In s U) ->
  (forall s p m, env s = SExtern (Some (p, Some m)) -> NoDup (map fst (defs m))) -> instantiateRoots env fuel noInst rs = Ok st ->
  closed (entries st) /\ fresh (entries st) /\ keyed (entries st) /\ acyclic (entries st) /\ (length (entries st) <= length U)%nat.
Proof. exact (fun env U fuel rs st Hu => instantiate_graph env U Hu fuel rs st). Qed.
Print Assumptions C43_project.
(** C43. Adding a dependency to one: it is there once, and public if it is added publicly once. *)
Theorem C43_add : forall v c ds, NoDup (map snd ds) -> let (ds', new) := addDependency v c ds in
  map snd ds' = map snd ds ++ (if new then [c] else []) /\ NoDup (map snd ds') /\ (new = true <-> ~ In c (map snd ds)) /\ (forall x, In (Public, x) ds' <-> In (Public, x) ds \/ (v = Public /\ x = c)).
Proof. exact addDependency_ok. Qed.
Print Assumptions C43_add.
Example C43_case : exists w n t, propagateAll 9 (mkworld built []) = Ok w /\ errors w = [] /\ node (nodes w) 0 = Some n /\ tgt n = Some t /\
  seen n = [0; 2; 1]%nat /\ privIncs t = [txt "app"; txt "core"; txt "gui"] /\ incs n = [txt "gui"; txt "core"] /\ libs n = [txt "core"; txt "ext.a"; txt "gui"] /\ privDefs t = [(txt "X", txt "1")].
Proof.
  exists (match propagateAll 9 (mkworld built []) with Ok w => w | _ => mkworld [] [] end). exists (match propagateAll 9 (mkworld built []) with Ok w => match node (nodes w) 0 with Some n => n | None => emptyDep end | _ => emptyDep end).
  exists (match propagateAll 9 (mkworld built []) with Ok w => match node (nodes w) 0 with Some n => match tgt n with Some t => t | None => mktarget Lib [] None [] [] [] [] false end | None => mktarget Lib [] None [] [] [] [] false end | _ => mktarget Lib [] None [] [] [] [] false end).
  vm_compute. repeat split.
Qed.
Example C43_case_hyps : closed built /\ fresh built /\ keyed built /\ acyclic built.
Proof.
  assert (E : instantiateRoots shop 9 noInst [(0%nat, false)] = Ok (match instantiateRoots shop 9 noInst [(0%nat, false)] with Ok st => st | _ => noInst end)) by (vm_compute; reflexivity).
  assert (B : built = entries (match instantiateRoots shop 9 noInst [(0%nat, false)] with Ok st => st | _ => noInst end)) by (vm_compute; reflexivity). rewrite B.
  destruct (instantiate_graph shop [0; 1; 2; 3; 4]%nat) with (fuel := 9%nat) (rs := [(0%nat, false)]) (st := match instantiateRoots shop 9 noInst [(0%nat, false)] with Ok st => st | _ => noInst end) as (A1 & A2 & A3 & A4 & _); auto.
  - intros s c I (v & N). repeat (destruct I as [<-|I]; [vm_compute in N; repeat (destruct N as [N|N]; [injection N as _ <-; vm_compute; tauto|]); contradiction|]). contradiction.
  - intros s b [I|[]]. injection I as <- <-. left. reflexivity.
  - intros s p m H. clear E B. destruct s as [|[|[|[|s]]]]; try discriminate H. injection H as <- <-. constructor.
Qed.
(** C43 refuted for graphs with loops, which addDependency can make: it never ends. *)
Theorem C43_loop_refuted : forall (S : nat -> Prop) fuel w, (forall d, S d -> exists n v c r, node (nodes w) d = Some n /\ done n = false /\ deps n = (v, c) :: r /\ S c) -> forall d, S d -> propagate fuel w d = Deep.
Proof. exact loop_deep. Qed.
Print Assumptions C43_loop_refuted.
Example C43_loop_case : forall fuel, propagate fuel (mkworld (map (fun c => mkentry c (Some (mkdep (fst (addDependency Public (1 - c) [])) true false [] [] [] [] [] [] [] None))) [0; 1]%nat) []) 0 = Deep.
Proof.
  intros fuel. apply (C43_loop_refuted (fun d => (d < 2)%nat)); [|auto with arith]. intros d L. destruct d as [|[|d]]; [| |exfalso; inversion L as [|m L1]; inversion L1 as [|m' L2]; inversion L2].
  - eexists _, Public, 1%nat, []. split; [reflexivity|]. auto.
  - eexists _, Public, 0%nat, []. split; [reflexivity|]. auto.
Qed.

(** C60. It fails exactly if something that is needed is broken; otherwise there is one entry for each source that is needed, as it
    asks to be ([entryOk] in InstSpec.v), and the lists of externs to select or install are complete. *)
Theorem C60_project : forall env U fuel rs, (forall s c, In s U -> needs env s c -> In c U) -> (length U < fuel)%nat -> (forall s b, In (s, b) rs -> In s U) ->
  match instantiateRoots env fuel noInst rs with
  | Deep => False
  | Crash => exists x, rooted env rs x /\ broken env x
  | Ok st =>
    (forall x, rooted env rs x -> ~ broken env x) /\
    NoDup (map esrc (entries st)) /\ (forall x, In x (map esrc (entries st)) <-> rooted env rs x) /\
    (forall e, In e (entries st) -> entryOk env rs (entries st) e) /\
    (NoDup (unselected st) /\ forall x, In x (unselected st) <-> rooted env rs x /\ env x = SExtern None) /\
    (NoDup (uninstalled st) /\ forall p, In p (uninstalled st) <-> exists x, rooted env rs x /\ env x = SExtern (Some (p, None)))
  end.
Proof. exact (fun env U fuel rs Hu => instantiate_ok env U Hu fuel rs). Qed.
Print Assumptions C60_project.
Example C60_case : exists st, instantiateRoots shop 9 noInst [(0%nat, false)] = Ok st /\ map esrc (entries st) = [0; 1; 2; 3; 4]%nat /\ unselected st = [4]%nat /\ uninstalled st = [] /\
  map (fun e => names (edep e)) (entries st) = [Some (txt "app", [(Private, 1%nat); (Public, 2%nat)]); Some (txt "core", []); Some (txt "gui", [(Public, 1%nat); (Private, 3%nat)]); None; None].
Proof. exists (match instantiateRoots shop 9 noInst [(0%nat, false)] with Ok st => st | _ => noInst end). vm_compute. repeat split. Qed.
Example C60_loop_case : instantiateRoots (fun s => STarget [] [CDep Public (match s with 0%nat => 1%nat | _ => 0%nat end)]) 9 noInst [(0%nat, false)] = Crash /\
  onLoop (fun s => STarget [] [CDep Public (match s with 0%nat => 1%nat | _ => 0%nat end)]) 0.
Proof.
  split; [reflexivity|]. exists 1%nat. split; [exists Public; left; reflexivity|]. apply (reaches_step _ _ 0%nat); [exists Public; left; reflexivity|constructor].
Qed.
(** A library (0), a shared root (1) and a program (2) that use it. *)
Definition pair_ (s : nat) : source :=
  match s with
  | 0%nat => STarget (txt "lib") [CPrefix (txt "LIB"); CSources]
  | 1%nat => STarget (txt "plugin") [CDep Public 0; CSources]
  | _ => STarget (txt "app") [CType EXE; CDep Public 0; CSources]
  end.
Definition swapped : inst * world := Eval vm_compute in match instantiateAll pair_ 9 [(1%nat, true); (2%nat, false)] with Ok r => r | _ => (noInst, mkworld [] []) end.
(** C60 refuted, that the order of the roots does not matter: an assertion fails if the program comes first; and if it comes last, it is
    taken to be inside the shared root. *)
Theorem C60_order_refuted : instantiateAll pair_ 9 [(2%nat, false); (1%nat, true)] = Crash /\
  (forall x, rooted pair_ [(2%nat, false); (1%nat, true)] x -> ~ broken pair_ x) /\
  exists st w n t, instantiateAll pair_ 9 [(1%nat, true); (2%nat, false)] = Ok (st, w) /\ at_ (entries st) 2 2 /\ node (nodes w) 2 = Some n /\ tgt n = Some t /\ atSrc (entries st) (container t) (Some 1%nat) /\ In (txt "LIB_EXPORTING", txt "1") (privDefs t).
Proof.
  split; [vm_compute; reflexivity|]. split.
  - assert (Cl : forall s c, In s [0; 1; 2]%nat -> needs pair_ s c -> In c [0; 1; 2]%nat).
    { intros s c I (v & N). repeat (destruct I as [<-|I]; [vm_compute in N; repeat (destruct N as [N|N]; [injection N as _ <-; vm_compute; tauto|]); contradiction|]). contradiction. }
    assert (Ro : forall s b, In (s, b) [(2%nat, false); (1%nat, true)] -> In s [0; 1; 2]%nat) by (intros s b [I|[I|[]]]; injection I as <- <-; vm_compute; tauto).
    assert (Lt : (length [0; 1; 2]%nat < 9)%nat) by (apply Nat.ltb_lt; reflexivity).
    pose proof (C60_project pair_ [0; 1; 2]%nat 9 [(2%nat, false); (1%nat, true)] Cl Lt Ro) as H. assert (E : instantiateRoots pair_ 9 noInst [(2%nat, false); (1%nat, true)] = Ok (match instantiateRoots pair_ 9 noInst [(2%nat, false); (1%nat, true)] with Ok st => st | _ => noInst end)) by (vm_compute; reflexivity).
    rewrite E in H. exact (proj1 H).
  - exists (fst swapped), (snd swapped), (match node (nodes (snd swapped)) 2 with Some n => n | None => emptyDep end), (match node (nodes (snd swapped)) 2 with Some n => match tgt n with Some t => t | None => mktarget Lib [] None [] [] [] [] false end | None => mktarget Lib [] None [] [] [] [] false end).
    split; [vm_compute; reflexivity|]. split; [eexists; split; [reflexivity|reflexivity]|]. split; [reflexivity|]. split; [reflexivity|]. split; [eexists; split; reflexivity|]. left. reflexivity.
Qed.
Print Assumptions C60_order_refuted.
