(* C92: commands in comments register the functions that follow them. *)
From Coq Require Import String.
From Verif Require Import Base Txt CommandModel CommandSpec CommandProofs.
Local Open Scope string_scope.
Local Open Scope list_scope.
Local Open Scope Z_scope.
Local Notation length := List.length.

(** C92. A command, however white space is put, is read as it is written. *)
Theorem C92_read : forall tok c, written tok c -> comment 1 tok = Bracket (inl c).
Proof. exact written_read. Qed.
Print Assumptions C92_read.
Example C92_read_case : written (txt "// [ply extern =" ++ quote ++ txt "zlib" ++ quote ++ txt " provider=" ++ quote ++ txt "apt" ++ quote ++ txt "]") (Extern (txt "zlib") (txt "apt")).
Proof.
  apply (written_extern [32] [32] [32] [] [32] [] [] [] [] (txt "zlib") (txt "apt")); try discriminate; try (apply Forall_nil);
    try (apply Forall_cons; [cbn; tauto|apply Forall_nil]);
    (split; [discriminate|cbn; repeat (apply Forall_cons; [split; [lia|intros [H|[H|[H|[H|[]]]]]; discriminate]|]); apply Forall_nil]).
Qed.

(** C92. Inside of something it is refused. *)
Theorem C92_scope : forall depth tok c, written tok c -> depth <> 1%nat -> comment depth tok = Bracket (inr MustBeAtFileScope).
Proof. exact written_scope. Qed.
Print Assumptions C92_scope.

(** C92. A comment in which [ply] does not occur is nothing. *)
Theorem C92_remark : forall depth tok, ~ infix (txt "ply") tok -> comment depth tok = Nothing.
Proof. exact remark. Qed.
Print Assumptions C92_remark.

(** C92. A function is registered for a command if and only if it is what the command leads to. *)
Theorem C92_registered : forall es c f, In (c, f) (registered (extract es)) <-> leads es c (Declared (Some f)).
Proof.
  intros es c f. unfold extract. rewrite registered_ok. cbn [registered pending]. split; [|auto].
  intros [[]|[[H _]|H]]; [discriminate|exact H].
Qed.
Print Assumptions C92_registered.

(** C92. Functions are registered in the order of the file, none twice. *)
Theorem C92_order : forall es es', (exists more, registered (extract (es ++ es')) = registered (extract es) ++ more) /\
  (length (registered (extract es)) <= length (filter (fun e => match e with Declared (Some _) => true | _ => false end) es))%nat.
Proof.
  intros es es'. split; [|apply declared_once]. unfold extract. rewrite fold_left_app. apply fold_prefix.
Qed.
Print Assumptions C92_order.

(** C92. There are no errors if and only if every command is right and none leads to another command or to
    something that is not one function. *)
Theorem C92_success : forall es, succeeds es = true <->
  (forall e, In e es -> ~ wrong e) /\ (forall c e, clash e -> ~ leads es c e).
Proof.
  intros es. assert (H : succeeds es = true <-> errors (extract es) = []).
  { unfold succeeds. destruct (errors (extract es)); split; intros; congruence. }
  rewrite H. unfold extract. rewrite success_from. cbn [errors pending]. split; [tauto|]. intros [H1 H2]. split; [reflexivity|]. split; [exact H1|].
  split; [intros e _ Hn; contradiction|exact H2].
Qed.
Print Assumptions C92_success.

(** A file with a remark between a command and its function, and one where a variable follows. *)
Definition runtime : list Z := txt "// [ply module=" ++ quote ++ txt "runtime" ++ quote ++ txt "]".
Example C92_case : extract [Declared (Some (txt "main")); Comment true 1 runtime; Comment true 1 (txt "// remark"); Declared (Some (txt "inst"))] =
  mkHooks None [(Module (txt "runtime"), txt "inst")] [].
Proof. vm_compute. reflexivity. Qed.
Example C92_case_wrong : errors (extract [Comment true 1 runtime; Declared None; Comment true 1 runtime; Comment true 2 runtime; Comment true 1 (txt "//ply module")]) =
  [CouldNotApplyCommand; AlreadyInsideCommand; MustBeAtFileScope; OldCommandFormat].
Proof. vm_compute. reflexivity. Qed.
Example C92_leads_case : leads [Comment true 1 runtime; Comment true 1 (txt "// remark"); Declared (Some (txt "inst"))] (Module (txt "runtime")) (Declared (Some (txt "inst"))).
Proof. apply C92_registered. vm_compute. auto. Qed.

(** C92. Not every command that is not applied is told: one at the end of the file, with any remarks after it, is
    forgotten without an error. *)
Theorem C92_trailing_refuted : forall tok c mid, written tok c ->
  Forall (fun e => exists b d tok, e = Comment b d tok /\ ~ infix (txt "ply") tok) mid ->
  succeeds (Comment true 1 tok :: mid) = true /\ registered (extract (Comment true 1 tok :: mid)) = [].
Proof.
  intros tok c mid Hw Hm. unfold succeeds, extract. cbn [fold_left]. rewrite (remarks_nothing mid Hm). cbn [step].
  rewrite (written_read tok c Hw). split; reflexivity.
Qed.
Print Assumptions C92_trailing_refuted.
