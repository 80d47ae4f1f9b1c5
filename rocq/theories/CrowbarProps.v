(* Properties of Crowbar scripts. *)
From Coq Require Import Lia String.
From Verif Require Import Base Txt CrowbarModel CrowbarSpec CrowbarMain CrowbarMono.
Local Open Scope string_scope.
Local Open Scope list_scope.
Local Open Scope Z_scope.

(* ---- scripts of the examples ---- *)
Definition V (s : string) : expr := EName (txt s).
Definition T (s : string) : expr := EStr [(txt s, None)].
Definition Call (f : string) (args : list expr) : expr := ECall (V f) args.
Definition Print (e : expr) : stmt := SEval (Call "print" [e]).
Definition Set_ (x : string) (e : expr) : stmt := SAssign (V x) e.
Definition Fn (f : string) (ps : list string) (b : list stmt) : fndef := FnDef (txt f) (map txt ps) b.
Definition run (k : nat) (fns : list fndef) : option (outcome (list Z)) := callScript k fns (txt "test").
Definition text (l : list string) : list Z := concat (map (fun s => txt s ++ [10]) l).

(* ---- C74 ---- *)
(** The script functions [fns] in which no variable is handed over by its bare name do what they
    mean: the output of calling [f] (or the error reported, with the output before it, or the absence
    of an end after [k] steps) is that of the reference interpreter on values, provided that gives the
    script a meaning at all (operands of the right types, as many arguments as parameters, conditions
    that are bools, variables that keep their type, no division by zero). *)
Theorem C74_script_does_what_it_means_partial k fns f :
  plain fns = true -> prints k fns f <> Some Crash -> callScript k fns f = prints k fns f.
Proof. exact (script_runs k fns f). Qed.
Print Assumptions C74_script_does_what_it_means_partial.

(** The number of steps allowed is immaterial once it suffices. *)
Theorem C74_steps_do_not_matter k k' fns f o :
  (k <= k')%nat -> callScript k fns f = Some o -> o <> OutOfSteps -> callScript k' fns f = Some o.
Proof. exact (script_settles k k' fns f o). Qed.
Print Assumptions C74_steps_do_not_matter.

(** A plain script with recursion, loops, strings and every kind of statement. *)
Definition C74_plain : list fndef :=
  [ Fn "gcd" ["a"; "b"]
      [ SIf (EBin OEq (EBin OMod (V "a") (V "b")) (EInt 0)) [SReturn (EBin OAdd (V "b") (EInt 0))]
          (Some [SReturn (Call "gcd" [EBin OAdd (V "b") (EInt 0); EBin OMod (V "a") (V "b")])]) ];
    Fn "greet" ["who"; "n"]
      [ SWhile (EBin OGt (V "n") (EInt 0))
          [ Print (EStr [(txt "Hello ", Some (V "who")); (txt " ", Some (V "n")); (txt ".", None)]);
            Set_ "n" (EBin OSub (V "n") (EInt 1)) ];
        SReturn (EBin OMul (T "-") (EInt 3)) ];
    Fn "test" []
      [ Print (Call "gcd" [EInt 36; EInt 96]);
        Set_ "s" (Call "greet" [EBin OAdd (T "wor") (T "ld"); EInt 2]);
        Set_ "s" (EBin OAdd (V "s") (T ">"));
        Print (EBin OAdd (V "s") (T ""));
        Print (EUn UNot (EBin OAnd (V "true") (EBin OEq (V "false") (V "false"))));
        SEval (EBin OAdd (V "true") (V "false")) ] ].
Example C74_plain_ex :
  plain C74_plain = true /\
  prints 40 C74_plain (txt "test") =
    Some (Fail (ErrBinary TBool OAdd) (text ["12"; "Hello world 2."; "Hello world 1."; "--->"; "false"])).
Proof. split; vm_compute; reflexivity. Qed.
Example C74_plain_ex_run : run 40 C74_plain = prints 40 C74_plain (txt "test").
Proof.
  apply C74_script_does_what_it_means_partial; [apply C74_plain_ex|]. rewrite (proj2 C74_plain_ex). discriminate.
Qed.
(** It is not confined to scripts that end. *)
Definition C74_forever : list fndef := [Fn "test" [] [SWhile (V "true") [Print (EInt 1)]]].
Example C74_forever_ex : plain C74_forever = true /\ prints 30 C74_forever (txt "test") = Some OutOfSteps.
Proof. split; vm_compute; reflexivity. Qed.

(** The first script of the project's own tests is not plain; the model runs it as expected. *)
Definition C74_fibonacci : list fndef :=
  [ Fn "test" []
      [ Set_ "a" (EInt 1); Set_ "b" (EInt 1);
        SWhile (EBin OLt (V "a") (EInt 100))
          [ Print (V "a"); Set_ "t" (V "a"); Set_ "a" (V "b"); Set_ "b" (EBin OAdd (V "b") (V "t")) ] ] ].
Example C74_fibonacci_ex :
  run 40 C74_fibonacci = Some (Done (text ["1"; "1"; "2"; "3"; "5"; "8"; "13"; "21"; "34"; "55"; "89"])).
Proof. vm_compute. reflexivity. Qed.

(** Without that discipline the claim fails. A variable made from the newest variable: the loop that
    deletes the temporary objects starts behind the object it is to stop at. *)
Theorem C74_copy_of_the_newest_variable_refuted v :
  let script := [Fn "test" [] [Set_ "x" (EInt v); Set_ "y" (V "x")]] in
  prints 4 script (txt "test") = Some (Done []) /\
  forall k, (4 <= k)%nat -> run k script = Some Crash.
Proof.
  split; [reflexivity|]. intros k L. apply (script_settles 4); [exact L | reflexivity | discriminate].
Qed.
Print Assumptions C74_copy_of_the_newest_variable_refuted.

(** A string variable that is printed is lost, unless it is the newest. *)
Theorem C74_printing_empties_a_string_refuted a b :
  let script := [Fn "test" [] [Set_ "s" (EStr [(a, None)]); Set_ "t" (EStr [(b, None)]); Print (V "s"); Print (V "s")]] in
  prints 4 script (txt "test") = Some (Done ((a ++ [10]) ++ a ++ [10])) /\
  forall k, (4 <= k)%nat -> run k script = Some (Done ((a ++ [10]) ++ [10])).
Proof.
  assert (E : a ++ [] ++ [] = a) by (rewrite !app_nil_r; reflexivity).
  split.
  - unfold prints. cbn. rewrite ?E, ?app_nil_r. reflexivity.
  - intros k L. apply (script_settles 4); [exact L | reflexivity | discriminate].
Qed.
Print Assumptions C74_printing_empties_a_string_refuted.

(** The newest variable, passed to a function, is not copied: an assignment to the parameter changes
    the caller's variable. *)
Theorem C74_parameter_is_the_callers_variable_refuted :
  let script := [ Fn "f" ["p"] [Set_ "p" (EInt 2)];
                  Fn "test" [] [Set_ "x" (EInt 1); SEval (Call "f" [V "x"]); Print (V "x")] ] in
  prints 6 script (txt "test") = Some (Done (text ["1"])) /\
  forall k, (6 <= k)%nat -> run k script = Some (Done (text ["2"])).
Proof.
  split; [reflexivity|]. intros k L. apply (script_settles 6); [exact L | reflexivity | discriminate].
Qed.
Print Assumptions C74_parameter_is_the_callers_variable_refuted.

(** An argument that is returned is destroyed before it is used, if it is not the last one. *)
Theorem C74_returned_argument_refuted a b :
  let script := [ Fn "first" ["p"; "q"] [SReturn (V "p")];
                  Fn "test" [] [Set_ "x" (Call "first" [EStr [(a, None)]; EStr [(b, None)]])] ] in
  prints 6 script (txt "test") = Some (Done []) /\
  forall k, (6 <= k)%nat -> run k script = Some Crash.
Proof.
  split; [reflexivity|]. intros k L. apply (script_settles 6); [exact L | reflexivity | discriminate].
Qed.
Print Assumptions C74_returned_argument_refuted.

(** So is a local variable that is returned, if it is not the newest. *)
Theorem C74_returned_variable_refuted a b :
  let script := [ Fn "f" [] [Set_ "p" (EStr [(a, None)]); Set_ "q" (EStr [(b, None)]); SReturn (V "p")];
                  Fn "test" [] [Print (Call "f" [])] ] in
  prints 6 script (txt "test") = Some (Done (a ++ [10])) /\
  forall k, (6 <= k)%nat -> run k script = Some Crash.
Proof.
  assert (E : a ++ [] ++ [] = a) by (rewrite !app_nil_r; reflexivity).
  split.
  - unfold prints. cbn. rewrite ?E, ?app_nil_r. reflexivity.
  - intros k L. apply (script_settles 6); [exact L | reflexivity | discriminate].
Qed.
Print Assumptions C74_returned_variable_refuted.

(** A string assigned to itself is lost. *)
Theorem C74_string_assigned_to_itself_refuted a :
  let script := [Fn "test" [] [Set_ "s" (EStr [(a, None)]); Set_ "s" (V "s"); Print (V "s")]] in
  prints 4 script (txt "test") = Some (Done (a ++ [10])) /\
  forall k, (4 <= k)%nat -> run k script = Some (Done [10]).
Proof.
  assert (E : a ++ [] ++ [] = a) by (rewrite !app_nil_r; reflexivity).
  split.
  - unfold prints. cbn. rewrite ?E, ?app_nil_r. reflexivity.
  - intros k L. apply (script_settles 4); [exact L | reflexivity | discriminate].
Qed.
Print Assumptions C74_string_assigned_to_itself_refuted.

(** Both operands of the logical operators are evaluated: "x == 0 || 10 / x > 1" divides by zero. *)
Theorem C74_or_does_not_short_circuit_refuted :
  let script := [Fn "test" [] [Set_ "x" (EInt 0);
                   SIf (EBin OOr (EBin OEq (V "x") (EInt 0)) (EBin OGt (EBin ODiv (EInt 10) (V "x")) (EInt 1)))
                     [Print (EInt 1)] None]] in
  forall k, (8 <= k)%nat -> run k script = Some Crash.
Proof.
  intros script k L. apply (script_settles 8); [exact L | reflexivity | discriminate].
Qed.
Print Assumptions C74_or_does_not_short_circuit_refuted.
