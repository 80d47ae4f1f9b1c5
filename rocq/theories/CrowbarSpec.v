(* What a Crowbar script means: an interpreter on values. There is no storage: an expression has a
   value, a variable holds a value, a call binds its parameters to the values of its arguments. *)
From Verif Require Export CrowbarModel.

(** Decimal notation. *)
Fixpoint digits (k : nat) (z : Z) : list Z :=
  match k with
  | O => []
  | S k => if z =? 0 then [] else digits k (z / 10) ++ [48 + z mod 10]
  end.
Definition decimal (z : Z) : list Z := if z =? 0 then [48] else digits 10 z.
Definition display (v : value) : list Z :=
  match v with
  | VInt a => decimal a
  | VBool true => n_true
  | VBool false => n_false
  | VStr s => s
  end.

(** What an expression stands for: a value, a function of the script, "print", or nothing (the call
    of a function that returned nothing). *)
Inductive meaning := MVal (v : value) | MFun (f : fndef) | MPrint | MNothing.

(** The variables of a function. *)
Definition env := name -> option value.
Definition empty : env := fun _ => None.
Definition assign (x : name) (v : value) (s : env) : env :=
  fun y => if bytes_eqb x y then Some v else s y.

(** Variables hide functions, functions hide built-in names; of several functions with the same name
    the last counts. *)
Definition function (fns : list fndef) (n : name) : option fndef :=
  find (fun f => bytes_eqb (fd_name f) n) (rev fns).
Definition resolve (fns : list fndef) (s : env) (n : name) : option meaning :=
  match s n with
  | Some v => Some (MVal v)
  | None =>
      match function fns n with
      | Some f => Some (MFun f)
      | None =>
          if bytes_eqb n n_print then Some MPrint
          else if bytes_eqb n n_true then Some (MVal (VBool true))
          else if bytes_eqb n n_false then Some (MVal (VBool false))
          else None
      end
  end.

Definition typeName (m : meaning) : option tyname :=
  match m with
  | MVal v => Some (typeOfValue v)
  | MFun _ => Some TFnDef
  | MPrint => Some TFunction
  | MNothing => None
  end.

(** Operators. [None]: the type does not have the operator, which the script is told; [Some Crash]:
    no meaning (division by zero, an operand of another type, a string of 4 GB or more). *)
Definition wrap (z : Z) : value := VInt (z mod 2 ^ 32).
Definition orCrash (v : option value) : outcome value :=
  match v with Some v => Done v | None => Crash end.
Definition binary (op : binop) (l r : meaning) : option (outcome value) :=
  match l with
  | MNothing => Some Crash
  | MFun _ | MPrint => None
  | MVal (VInt a) =>
      let ints (f : Z -> Z -> option value) :=
        Some (match r with MVal (VInt b) => orCrash (f a b) | _ => Crash end) in
      match op with
      | OMul => ints (fun a b => Some (wrap (a * b)))
      | ODiv => ints (fun a b => if b =? 0 then None else Some (VInt (a / b)))
      | OMod => ints (fun a b => if b =? 0 then None else Some (VInt (a mod b)))
      | OAdd => ints (fun a b => Some (wrap (a + b)))
      | OSub => ints (fun a b => Some (wrap (a - b)))
      | OLt => ints (fun a b => Some (VBool (a <? b)))
      | OLe => ints (fun a b => Some (VBool (a <=? b)))
      | OGt => ints (fun a b => Some (VBool (b <? a)))
      | OGe => ints (fun a b => Some (VBool (b <=? a)))
      | OEq => ints (fun a b => Some (VBool (a =? b)))
      | OAnd | OOr => None
      end
  | MVal (VBool a) =>
      let bools (f : bool -> bool -> bool) :=
        Some (match r with MVal (VBool b) => Done (VBool (f a b)) | _ => Crash end) in
      match op with
      | OEq => bools Bool.eqb
      | OAnd => bools andb
      | OOr => bools orb
      | _ => None
      end
  | MVal (VStr a) =>
      match op with
      | OAdd =>
          Some (match r with
                | MVal (VStr b) => if zlen a + zlen b <? 2 ^ 32 then Done (VStr (a ++ b)) else Crash
                | _ => Crash
                end)
      | OMul =>
          Some (match r with
                | MVal (VInt b) =>
                    if zlen a * b <? 2 ^ 32 then Done (VStr (concat (repeat a (Z.to_nat b)))) else Crash
                | _ => Crash
                end)
      | _ => None
      end
  end.
Definition unary (op : unop) (m : meaning) : option (outcome value) :=
  match m, op with
  | MNothing, _ => Some Crash
  | MVal (VInt a), UNeg => Some (Done (wrap (- a)))
  | MVal (VInt a), UNot => Some (Done (VInt (if a =? 0 then 1 else 0)))
  | MVal (VInt a), UCompl => Some (Done (VInt (2 ^ 32 - 1 - a)))
  | MVal (VBool a), UNot => Some (Done (VBool (negb a)))
  | _, _ => None
  end.

(** The result of an operator: [told] is the error if the type does not have it. *)
Definition applied (v : option (outcome value)) (told : tyname -> error) (m : meaning) (o : list Z)
  : outcome (meaning * list Z) :=
  match v with
  | Some v => bind v (fun v => Done (MVal v, o))
  | None => match typeName m with Some t => Fail (told t) o | None => Crash end
  end.

(** Pieces of a string and arguments, from left to right; [o] is the output so far. *)
Fixpoint means_pieces (ev : expr -> list Z -> outcome (meaning * list Z))
  (ps : list (list Z * option expr)) (o : list Z) : outcome (list Z * list Z) :=
  match ps with
  | [] => Done ([], o)
  | (lit, e) :: ps =>
      bind (match e with
            | None => Done ([], o)
            | Some e =>
                bind (ev e o) (fun r =>
                  match r with
                  | (MVal v, o) => Done (display v, o)
                  | _ => Crash
                  end)
            end) (fun r =>
        let '(t, o) := r in
        bind (means_pieces ev ps o) (fun r => let '(rest, o) := r in Done (lit ++ t ++ rest, o)))
  end.
Fixpoint means_args (ev : expr -> list Z -> outcome (meaning * list Z)) (args : list expr) (o : list Z)
  : outcome (list value * list Z) :=
  match args with
  | [] => Done ([], o)
  | a :: args =>
      bind (ev a o) (fun r =>
        match r with
        | (MVal v, o) => bind (means_args ev args o) (fun r => let '(vs, o) := r in Done (v :: vs, o))
        | _ => Crash
        end)
  end.
Fixpoint bound (ps : list name) (vs : list value) (s : env) : env :=
  match ps, vs with
  | p :: ps, v :: vs => bound ps vs (assign p v s)
  | _, _ => s
  end.

(** Where a statement leaves off: the next one runs, or the function returns. *)
Inductive stop := Next (s : env) | Returned (m : meaning).
Fixpoint means_list (ex : stmt -> env -> list Z -> outcome (stop * list Z)) (b : list stmt) (s : env)
  (o : list Z) : outcome (stop * list Z) :=
  match b with
  | [] => Done (Next s, o)
  | st :: b =>
      bind (ex st s o) (fun r =>
        match r with
        | (Next s, o) => means_list ex b s o
        | _ => Done r
        end)
  end.

(** Expressions, statements and loops, to the depth [k]. Both operands of every operator are
    evaluated, the left one first. *)
Fixpoint means (k : nat) (fns : list fndef) (s : env) (e : expr) (o : list Z) {struct k}
  : outcome (meaning * list Z) :=
  match k with
  | O => OutOfSteps
  | S k =>
      let ev := means k fns s in
      match e with
      | EName n =>
          match resolve fns s n with
          | Some m => Done (m, o)
          | None => Fail (ErrUnresolved n) o
          end
      | EInt v => Done (MVal (VInt v), o)
      | EStr ps => bind (means_pieces ev ps o) (fun r => let '(t, o) := r in Done (MVal (VStr t), o))
      | EProp e _ =>
          bind (ev e o) (fun r =>
            let '(m, o) := r in
            match typeName m with Some t => Fail (ErrProperty t) o | None => Crash end)
      | EBin op l r =>
          bind (ev l o) (fun x =>
            let '(a, o) := x in
            bind (ev r o) (fun x =>
              let '(b, o) := x in applied (binary op a b) (fun t => ErrBinary t op) a o))
      | EUn op e =>
          bind (ev e o) (fun x => let '(a, o) := x in applied (unary op a) (fun t => ErrUnary t op) a o)
      | ECall f args =>
          bind (ev f o) (fun x =>
            let '(c, o) := x in
            bind (means_args ev args o) (fun x =>
              let '(vs, o) := x in
              match c with
              | MNothing => Crash
              | MVal v => Fail (ErrCall (typeOfValue v)) o
              | MPrint => match vs with [v] => Done (MNothing, o ++ display v ++ [10]) | _ => Crash end
              | MFun f =>
                  if (length vs =? length (fd_params f))%nat then
                    bind (means_list (means_stmt k fns) (fd_body f) (bound (fd_params f) vs empty) o)
                      (fun x =>
                         match x with
                         | (Returned m, o) => Done (m, o)
                         | (Next _, o) => Done (MNothing, o)
                         end)
                  else Crash
              end))
      end
  end
with means_stmt (k : nat) (fns : list fndef) (st : stmt) (s : env) (o : list Z) {struct k}
  : outcome (stop * list Z) :=
  match k with
  | O => OutOfSteps
  | S k =>
      match st with
      | SIf c t f =>
          bind (means k fns s c o) (fun x =>
            match x with
            | (MVal (VBool b), o) =>
                match (if b then Some t else f) with
                | Some block => means_list (means_stmt k fns) block s o
                | None => Done (Next s, o)
                end
            | _ => Crash
            end)
      | SWhile c b => means_while k fns c b s o
      | SAssign (EName x) e =>
          bind (means k fns s e o) (fun r =>
            match r with
            | (MVal v, o) =>
                match s x with
                | Some old =>
                    if tyEqb (typeOfValue old) (typeOfValue v) then Done (Next (assign x v s), o) else Crash
                | None => Done (Next (assign x v s), o)
                end
            | _ => Crash
            end)
      | SAssign _ _ => Crash
      | SEval e => bind (means k fns s e o) (fun r => let '(_, o) := r in Done (Next s, o))
      | SReturn e => bind (means k fns s e o) (fun r => let '(m, o) := r in Done (Returned m, o))
      end
  end
with means_while (k : nat) (fns : list fndef) (c : expr) (b : list stmt) (s : env) (o : list Z) {struct k}
  : outcome (stop * list Z) :=
  match k with
  | O => OutOfSteps
  | S k =>
      bind (means k fns s c o) (fun x =>
        match x with
        | (MVal (VBool true), o) =>
            bind (means_list (means_stmt k fns) b s o) (fun r =>
              match r with
              | (Next s, o) => means_while k fns c b s o
              | _ => Done r
              end)
        | (MVal (VBool false), o) => Done (Next s, o)
        | _ => Crash
        end)
  end.

(** What calling the function [f] of a script prints. [Some Crash] is "no meaning". *)
Definition prints (k : nat) (fns : list fndef) (f : name) : option (outcome (list Z)) :=
  match function fns f with
  | None => None
  | Some fd =>
      Some (match fd_params fd with
            | [] =>
                bind (means_list (means_stmt k fns) (fd_body fd) empty []) (fun x => let '(_, o) := x in Done o)
            | _ => Crash
            end)
  end.

(** ** Plain scripts: a variable is never handed over as it is. The right side of an assignment, the
    arguments of calls and what is returned are computed, never the bare name of a variable; "true"
    and "false" keep their meaning. *)
Definition reserved (n : name) : bool := bytes_eqb n n_true || bytes_eqb n n_false.
Definition computed (e : expr) : bool := match e with EName n => reserved n | _ => true end.
Fixpoint plain_expr (e : expr) : bool :=
  match e with
  | EName _ => true
  | EInt v => (0 <=? v) && (v <? 2 ^ 32)
  | EStr ps => forallb (fun p => match snd p with Some e => plain_expr e | None => true end) ps
  | EProp e _ => plain_expr e
  | EBin _ l r => plain_expr l && plain_expr r
  | EUn _ e => plain_expr e
  | ECall f args => plain_expr f && forallb (fun a => computed a && plain_expr a) args
  end.
Fixpoint plain_stmt (s : stmt) : bool :=
  match s with
  | SIf c t f =>
      plain_expr c && forallb plain_stmt t && match f with Some f => forallb plain_stmt f | None => true end
  | SWhile c b => plain_expr c && forallb plain_stmt b
  | SAssign (EName x) e => negb (reserved x) && computed e && plain_expr e
  | SAssign _ _ => false
  | SEval e => plain_expr e
  | SReturn e => computed e && plain_expr e
  end.
Definition plain (fns : list fndef) : bool :=
  forallb (fun f => forallb (fun p => negb (reserved p)) (fd_params f) && forallb plain_stmt (fd_body f)) fns.
