(* Model of the Crowbar script interpreter.
   SRC/crowbar/ply-crowbar/{ParseTree.h,Interpreter.h,Interpreter.cpp},
   SRC/reflect/ply-reflect/methods/{MethodTable,BaseInterpreter,ObjectStack}.{h,cpp},
   SRC/reflect/ply-reflect/builtin/TypeDescriptor_{Arithmetic,Bool,String,Struct,Function}.cpp and
   the host of SRC/apps/CrowbarTest/Main.cpp (the namespaces it sets up and its "print").
   The parser is in CrowbarParse.v.

   Simplifications. Values are those scripts can make: u32, bool and String objects; C++ structures
   passed in by a host, and so the success of a property lookup, are not modelled. Source locations
   and the list of callers that follows an error message are left out. The names of variables are
   byte strings rather than labels (C10 and C33 are about the label table) and the hash maps from
   labels to objects are association lists (C18, C19). The bytes of the storage are not laid out in
   blocks: an object on the stack has an identity, and a pointer to an object that no longer exists
   or has been moved is a dangling pointer. *)
From Verif Require Export Base StringViewModel NumTextModel.

Definition name := list Z.

(** MethodTable.h:22-27 [UnaryOp], the three a script can write. *)
Inductive unop := UNeg | UNot | UCompl.
(** MethodTable.h:45-67 [BinaryOp]. *)
Inductive binop :=
| OMul | ODiv | OMod | OAdd | OSub | OLt | OLe | OGt | OGe | OEq | OAnd | OOr.

(** ParseTree.h:14-49 [Expression], without token indices. A piece of an interpolated string is a
    literal and possibly an embedded expression. *)
Inductive expr :=
| EName (n : name)
| EInt (v : Z)
| EStr (ps : list (list Z * option expr))
| EProp (e : expr) (n : name)
| EBin (op : binop) (l r : expr)
| EUn (op : unop) (e : expr)
| ECall (f : expr) (args : list expr).

(** ParseTree.h:51-94 [Statement], [StatementBlock]; function definitions occur in files only and
    custom blocks are made by host hooks, which are not modelled. *)
Inductive stmt :=
| SIf (c : expr) (t : list stmt) (f : option (list stmt))
| SWhile (c : expr) (b : list stmt)
| SAssign (l r : expr)
| SEval (e : expr)
| SReturn (e : expr).

(** ParseTree.h:76-83 [Statement::FunctionDefinition]. *)
Record fndef := FnDef { fd_name : name; fd_params : list name; fd_body : list stmt }.

(** The objects a script can make. *)
Inductive value := VInt (v : Z) | VBool (b : bool) | VStr (s : list Z).

(** AnyObject_Def.h:16-20: a pointer to an object: one on the stack; the integer inside a parse tree
    (Interpreter.cpp:195); the host's constants (Main.cpp:33-36); a function definition
    (Main.cpp:72); the native function "print". The null pointer is [None] of [option ref]. *)
Inductive ref :=
| RObj (id : nat)
| RLit (v : Z)
| RConst (b : bool)
| RFn (f : fndef)
| RPrint.

(** The types whose names appear in messages. *)
Inductive tyname := TU32 | TBool | TString | TFnDef | TFunction.

(** Interpreter.cpp:187, MethodTable.cpp:40-85: the errors a script is told about. *)
Inductive error :=
| ErrUnresolved (n : name)
| ErrUnary (t : tyname) (op : unop)
| ErrBinary (t : tyname) (op : binop)
| ErrProperty (t : tyname)
| ErrCall (t : tyname).

(** BaseInterpreter.h:13-19: the object stack (the last object first) with a supply of identities,
    the output, and the return value. *)
Record state := St
  { stk : list (nat * value); nxt : nat; out : list Z; ret : option ref }.

(** How a step ends: normally; with MethodResult::Error after the message has been given, all the
    output up to then being kept; in a failed assertion or undefined behaviour; or the number of
    steps allowed to the model has run out. *)
Inductive outcome (A : Type) :=
| Done (a : A)
| Fail (e : error) (o : list Z)
| Crash
| OutOfSteps.
Arguments Done {A}. Arguments Fail {A}. Arguments Crash {A}. Arguments OutOfSteps {A}.

Definition bind {A B} (x : outcome A) (f : A -> outcome B) : outcome B :=
  match x with
  | Done a => f a
  | Fail e o => Fail e o
  | Crash => Crash
  | OutOfSteps => OutOfSteps
  end.

Definition setRet (r : option ref) (st : state) : state := St (stk st) (nxt st) (out st) r.

(** The object with this identity, if it is still on the stack. *)
Fixpoint findObj (id : nat) (s : list (nat * value)) : option value :=
  match s with
  | [] => None
  | (i, v) :: s => if Nat.eqb i id then Some v else findObj id s
  end.
Fixpoint setObj (id : nat) (w : value) (s : list (nat * value)) : list (nat * value) :=
  match s with
  | [] => []
  | (i, v) :: s => if Nat.eqb i id then (i, w) :: s else (i, v) :: setObj id w s
  end.

Definition typeOfValue (v : value) : tyname :=
  match v with VInt _ => TU32 | VBool _ => TBool | VStr _ => TString end.
Definition valueOf (st : state) (r : ref) : option value :=
  match r with
  | RObj id => findObj id (stk st)
  | RLit v => Some (VInt v)
  | RConst b => Some (VBool b)
  | RFn _ | RPrint => None
  end.
(** [obj.type], [None] for a dangling pointer. *)
Definition typeOf (st : state) (r : ref) : option tyname :=
  match r with
  | RFn _ => Some TFnDef
  | RPrint => Some TFunction
  | _ => match valueOf st r with Some v => Some (typeOfValue v) | None => None end
  end.

(** ObjectStack.cpp:11-16 [appendObject] followed by the assignment of its value. *)
Definition append (v : value) (st : state) : state :=
  St ((nxt st, v) :: stk st) (S (nxt st)) (out st) (ret st).
(** The same, the new object becoming the return value, as the operators do. *)
Definition pushTemp (v : value) (st : state) : state :=
  St ((nxt st, v) :: stk st) (S (nxt st)) (out st) (Some (RObj (nxt st))).

(** TypeDescriptor_Def.h:79-84, String.h:76-79,116-119 [AnyObject::move] onto the object [id]: both
    must have the same type; a String that is moved from is left empty (a String moved onto itself
    too). Functions are not values that can be moved: moving one would take the function apart. *)
Definition tyEqb (a b : tyname) : bool :=
  match a, b with
  | TU32, TU32 | TBool, TBool | TString, TString | TFnDef, TFnDef | TFunction, TFunction => true
  | _, _ => false
  end.
Definition moved (v : value) : value := match v with VStr _ => VStr [] | _ => v end.
Definition moveTo (id : nat) (r : ref) (st : state) : outcome state :=
  match findObj id (stk st), valueOf st r with
  | Some old, Some v =>
      if tyEqb (typeOfValue old) (typeOfValue v) then
        let s := setObj id v (stk st) in
        let s := match r with RObj j => setObj j (moved v) s | _ => s end in
        Done (St s (nxt st) (out st) (ret st))
      else Crash
  | _, _ => Crash
  end.
(** [appendObject(returnValue.type)] and [move(returnValue)], Interpreter.cpp:127-128,317-319. *)
Definition construct (t : tyname) : value :=
  match t with TU32 => VInt 0 | TBool => VBool false | _ => VStr [] end.
Definition appendMoved (st : state) : outcome state :=
  match ret st with
  | None => Crash
  | Some r =>
      match valueOf st r with
      | None => Crash
      | Some v => moveTo (nxt st) r (append (construct (typeOfValue v)) st)
      end
  end.

(** ObjectStack.cpp:27-61 [deleteRange(from, end)]: only the [n] objects below the boundary stay. *)
Definition deleteAll (n : nat) (st : state) : outcome state :=
  if (n <=? length (stk st))%nat
  then Done (St (skipn (length (stk st) - n) (stk st)) (nxt st) (out st) (ret st))
  else Crash.
(** [deleteRange(from, end - 1)]: the last object stays too; it is moved down, so that pointers to
    it dangle, unless nothing lay between. If the boundary is the end itself the loop of
    ObjectStack.cpp:30-32 starts past the object it is to stop at. *)
Definition deleteBelowTop (n : nat) (st : state) : outcome state :=
  match stk st with
  | [] => Crash
  | (id, v) :: s =>
      if (n =? length s)%nat then Done st
      else if (n <=? length s)%nat
      then Done (St ((nxt st, v) :: skipn (length s - n) s) (S (nxt st)) (out st) (ret st))
      else Crash
  end.

(** Interpreter.cpp:51-54 [isReturnValueOnTopOfStack]. *)
Definition onTop (st : state) : bool :=
  match stk st, ret st with
  | (i, _) :: _, Some (RObj j) => Nat.eqb i j
  | _, _ => false
  end.

(** TypeDescriptor_Arithmetic.cpp:22-89, T = u32. Division by zero is undefined. *)
Definition arithmetic (op : binop) (a b : Z) : option value :=
  match op with
  | OMul => Some (VInt (u32 (a * b)))
  | ODiv => if b =? 0 then None else Some (VInt (a / b))
  | OMod => if b =? 0 then None else Some (VInt (a mod b))
  | OAdd => Some (VInt (u32 (a + b)))
  | OSub => Some (VInt (u32 (a - b)))
  | OEq => Some (VBool (a =? b))
  | OLt => Some (VBool (a <? b))
  | OLe => Some (VBool (a <=? b))
  | OGt => Some (VBool (b <? a))
  | OGe => Some (VBool (b <=? a))
  | OAnd | OOr => None
  end.

(** [left.type->methods.binaryOp], Interpreter.cpp:91; TypeDescriptor_Arithmetic.cpp:22-89,
    TypeDescriptor_Bool.cpp:20-48, TypeDescriptor_String.cpp:21-42, MethodTable.cpp:48-54. The
    operand on the right must have the type the operator wants ([cast] asserts it). *)
Definition pushResult (v : option value) (st : state) : outcome state :=
  match v with Some v => Done (pushTemp v st) | None => Crash end.
Definition binaryOp (op : binop) (l r : option ref) (st : state) : outcome state :=
  match l with
  | None => Crash
  | Some l =>
      match typeOf st l with
      | None => Crash
      | Some t =>
          let right := match r with Some r => valueOf st r | None => None end in
          let unsupported := Fail (ErrBinary t op) (out st) in
          match valueOf st l with
          | None => unsupported
          | Some (VInt a) =>
              match op with
              | OAnd | OOr => unsupported
              | _ =>
                  match right with
                  | Some (VInt b) => pushResult (arithmetic op a b) st
                  | _ => Crash
                  end
              end
          | Some (VBool a) =>
              match op with
              | OEq | OAnd | OOr =>
                  match right with
                  | Some (VBool b) =>
                      Done (pushTemp (VBool (match op with
                                             | OEq => Bool.eqb a b
                                             | OAnd => a && b
                                             | _ => a || b
                                             end)) st)
                  | _ => Crash
                  end
              | _ => unsupported
              end
          | Some (VStr a) =>
              match op with
              | OAdd =>
                  match right with
                  | Some (VStr b) =>
                      pushResult (match sv_concat a b with Some s => Some (VStr s) | None => None end) st
                  | _ => Crash
                  end
              | OMul =>
                  match right with
                  | Some (VInt b) =>
                      pushResult
                        (match sv_repeat a (Z.to_nat b) with Some s => Some (VStr s) | None => None end) st
                  | _ => Crash
                  end
              | _ => unsupported
              end
          end
      end
  end.

(** [obj.type->methods.unaryOp], Interpreter.cpp:105; TypeDescriptor_Arithmetic.cpp:90-115,
    TypeDescriptor_Bool.cpp:49-62, MethodTable.cpp:40-46. *)
Definition unaryOp (op : unop) (r : option ref) (st : state) : outcome state :=
  match r with
  | None => Crash
  | Some r =>
      match typeOf st r with
      | None => Crash
      | Some t =>
          let unsupported := Fail (ErrUnary t op) (out st) in
          match valueOf st r, op with
          | Some (VInt a), UNeg => Done (pushTemp (VInt (u32 (- a))) st)
          | Some (VInt a), UNot => Done (pushTemp (VInt (if a =? 0 then 1 else 0)) st)
          | Some (VInt a), UCompl => Done (pushTemp (VInt (u32 (Z.lnot a))) st)
          | Some (VBool a), UNot => Done (pushTemp (VBool (negb a)) st)
          | _, _ => unsupported
          end
      end
  end.

(** Interpreter.cpp:16-26 [write]; Main.cpp:15-20. *)
Definition textOf (v : value) : option (list Z) :=
  match v with
  | VInt a => print_u64 a 10 false
  | VBool true => Some [116; 114; 117; 101]
  | VBool false => Some [102; 97; 108; 115; 101]
  | VStr s => Some s
  end.

(** A frame's table of local variables, Interpreter.h:40; [find] and [insertOrFind(..)->obj = ..]. *)
Definition frame := list (name * ref).
Fixpoint findVar {A} (n : name) (t : list (name * A)) : option A :=
  match t with
  | [] => None
  | (m, x) :: t => if bytes_eqb m n then Some x else findVar n t
  end.
Fixpoint setVar {A} (n : name) (x : A) (t : list (name * A)) : list (name * A) :=
  match t with
  | [] => [(n, x)]
  | (m, y) :: t => if bytes_eqb m n then (m, x) :: t else (m, y) :: setVar n x t
  end.

(** Main.cpp:30-37,67-74: the namespace of functions, a later definition replacing an earlier one of
    the same name, and the built-in names. *)
Definition functionTable (fns : list fndef) : list (name * fndef) :=
  fold_left (fun t f => setVar (fd_name f) f t) fns [].
Definition n_print : name := [112; 114; 105; 110; 116].
Definition n_true : name := [116; 114; 117; 101].
Definition n_false : name := [102; 97; 108; 115; 101].
(** Interpreter.cpp:161-176 [lookupName]. *)
Definition lookupName (fns : list fndef) (fr : frame) (n : name) : option ref :=
  match findVar n fr with
  | Some r => Some r
  | None =>
      match findVar n (functionTable fns) with
      | Some f => Some (RFn f)
      | None =>
          if bytes_eqb n n_print then Some RPrint
          else if bytes_eqb n n_true then Some (RConst true)
          else if bytes_eqb n n_false then Some (RConst false)
          else None
      end
  end.

(** Interpreter.cpp:28-42 [evalString], the loop; [ev] evaluates an expression. [acc] is what has
    been written. *)
Fixpoint evalPieces (ev : expr -> state -> outcome state) (ps : list (list Z * option expr))
  (acc : list Z) (st : state) : outcome (list Z * state) :=
  match ps with
  | [] => Done (acc, st)
  | (lit, None) :: ps => evalPieces ev ps (acc ++ lit) st
  | (lit, Some e) :: ps =>
      bind (ev e st) (fun st =>
        match ret st with
        | None => Crash
        | Some r =>
            match valueOf st r with
            | None => Crash
            | Some v =>
                match textOf v with
                | None => Crash
                | Some t => evalPieces ev ps (acc ++ lit ++ t) (setRet None st)
                end
            end
        end)
  end.

(** Interpreter.cpp:118-134: the arguments of a call. *)
Fixpoint evalArgs (ev : expr -> state -> outcome state) (args : list expr) (acc : list nat) (st : state)
  : outcome (list nat * state) :=
  match args with
  | [] => Done (acc, st)
  | a :: args =>
      bind (ev a st) (fun st =>
        bind (if onTop st then Done st else appendMoved st) (fun st =>
          match stk st with
          | (id, _) :: _ => evalArgs ev args (acc ++ [id]) (setRet None st)
          | [] => Crash
          end))
  end.

(** Main.cpp:13-28 [doPrint], reached through TypeDescriptor_Function.h:46-55: one argument. *)
Definition callPrint (args : list nat) (st : state) : outcome state :=
  match args with
  | [id] =>
      match findObj id (stk st) with
      | None => Crash
      | Some v =>
          match textOf v with
          | None => Crash
          | Some t => Done (St (stk st) (nxt st) (out st ++ t ++ [10]) None)
          end
      end
  | _ => Crash
  end.

(** Interpreter.cpp:148-151: the parameters of the new frame. *)
Fixpoint bindParams (ps : list name) (args : list nat) (fr : frame) : frame :=
  match ps, args with
  | p :: ps, a :: args => bindParams ps args (setVar p (RObj a) fr)
  | _, _ => fr
  end.

(** MethodResult::OK and MethodResult::Return. *)
Inductive flow := FOk | FReturn.

(** Interpreter.cpp:334-401 [execBlock], the loop over the statements; [ex] executes one. *)
Fixpoint execList (ex : stmt -> frame -> state -> outcome (flow * frame * state)) (b : list stmt)
  (fr : frame) (st : state) : outcome (flow * frame * state) :=
  match b with
  | [] => Done (FOk, fr, st)
  | s :: b =>
      bind (ex s fr st) (fun r =>
        match r with
        | (FOk, fr, st) => execList ex b fr st
        | _ => Done r
        end)
  end.

(** Interpreter.cpp:403-427 [execFunction]; [n] objects are on the stack when it starts. *)
Definition leaveFunction (n : nat) (st : state) : outcome state :=
  if negb (n =? length (stk st))%nat && onTop st then
    bind (deleteBelowTop n st) (fun st =>
      match stk st with
      | (id, _) :: _ => Done (setRet (Some (RObj id)) st)
      | [] => Crash
      end)
  else deleteAll n st.

(** Interpreter.cpp:229-239,253-263: the condition of an if or a while: [cast] asserts a bool. *)
Definition condition (n : nat) (st : state) : outcome (bool * state) :=
  match ret st with
  | None => Crash
  | Some r =>
      match valueOf st r with
      | Some (VBool b) => bind (deleteAll n (setRet None st)) (fun st => Done (b, st))
      | _ => Crash
      end
  end.

(** Interpreter.cpp:293-323: the end of an assignment to a name; [n] objects were on the stack when
    the statement started. *)
Definition assignName (n : nat) (x : name) (fr : frame) (st : state) : outcome (flow * frame * state) :=
  match findVar x fr with
  | Some (RObj id) =>
      match ret st with
      | None => Crash
      | Some r =>
          bind (moveTo id r st) (fun st =>
            bind (deleteAll n st) (fun st => Done (FOk, fr, setRet None st)))
      end
  | Some _ => Crash
  | None =>
      bind (if onTop st then deleteBelowTop n st
            else bind (deleteAll n st) appendMoved) (fun st =>
        match stk st with
        | (id, _) :: _ => Done (FOk, setVar x (RObj id) fr, setRet None st)
        | [] => Crash
        end)
  end.

(** Interpreter.cpp:325-329: an assignment to anything else. Overwriting the literal or the constant
    that the left side evaluated to changes the script itself; that is not modelled. *)
Definition assignTo (n : nat) (l : option ref) (fr : frame) (st : state) : outcome (flow * frame * state) :=
  match l, ret st with
  | Some (RObj id), Some r =>
      bind (moveTo id r st) (fun st =>
        bind (deleteAll n (setRet None st)) (fun st => Done (FOk, fr, st)))
  | _, _ => Crash
  end.

(** Interpreter.cpp:178-224 [eval] with evalString:28-49, evalPropertyLookup:56-71,
    evalBinaryOp:73-92, evalUnaryOp:94-106 and evalCall:108-159; execBlock:334-401 with execIf:226-247
    and execAssign:274-332; execWhile:249-272. [k] bounds the depth of calls and loops. *)
Fixpoint eval (k : nat) (fns : list fndef) (fr : frame) (e : expr) (st : state) {struct k} : outcome state :=
  match k with
  | O => OutOfSteps
  | S k =>
      let ev := eval k fns fr in
      match e with
      | EName n =>
          match lookupName fns fr n with
          | Some r => Done (setRet (Some r) st)
          | None => Fail (ErrUnresolved n) (out st)
          end
      | EInt v => Done (setRet (Some (RLit v)) st)
      | EStr ps =>
          bind (evalPieces ev ps [] st) (fun r => let '(s, st) := r in Done (pushTemp (VStr s) st))
      | EProp e _ =>
          bind (ev e st) (fun st =>
            match ret st with
            | None => Crash
            | Some r =>
                match typeOf st r with
                | None => Crash
                | Some t => Fail (ErrProperty t) (out st)
                end
            end)
      | EBin op l r =>
          bind (ev l st) (fun st =>
            let left := ret st in
            bind (ev r (setRet None st)) (fun st =>
              let right := ret st in binaryOp op left right (setRet None st)))
      | EUn op e => bind (ev e st) (fun st => unaryOp op (ret st) (setRet None st))
      | ECall f args =>
          bind (ev f st) (fun st =>
            let callee := ret st in
            bind (evalArgs ev args [] (setRet None st)) (fun r =>
              let '(ids, st) := r in
              match callee with
              | None => Crash
              | Some (RFn fd) =>
                  if (length ids =? length (fd_params fd))%nat
                  then let n := length (stk st) in
                       bind (execList (exec k fns) (fd_body fd) (bindParams (fd_params fd) ids []) st)
                         (fun r => let '(_, _, st) := r in leaveFunction n st)
                  else Crash
              | Some RPrint => callPrint ids st
              | Some c =>
                  match typeOf st c with
                  | None => Crash
                  | Some t => Fail (ErrCall t) (out st)
                  end
              end))
      end
  end
with exec (k : nat) (fns : list fndef) (s : stmt) (fr : frame) (st : state) {struct k}
  : outcome (flow * frame * state) :=
  match k with
  | O => OutOfSteps
  | S k =>
      let n := length (stk st) in
      match s with
      | SIf c t f =>
          bind (eval k fns fr c st) (fun st =>
            bind (condition n st) (fun r =>
              let '(b, st) := r in
              match (if b then Some t else f) with
              | Some block => execList (exec k fns) block fr st
              | None => Done (FOk, fr, st)
              end))
      | SWhile c b => execWhile k fns c b fr st
      | SAssign l r =>
          match l with
          | EName x => bind (eval k fns fr r st) (fun st => assignName n x fr st)
          | _ =>
              bind (eval k fns fr l st) (fun st =>
                let left := ret st in
                bind (eval k fns fr r (setRet None st)) (fun st => assignTo n left fr st))
          end
      | SEval e =>
          bind (eval k fns fr e st) (fun st =>
            bind (deleteAll n (setRet None st)) (fun st => Done (FOk, fr, st)))
      | SReturn e => bind (eval k fns fr e st) (fun st => Done (FReturn, fr, st))
      end
  end
with execWhile (k : nat) (fns : list fndef) (c : expr) (b : list stmt) (fr : frame) (st : state) {struct k}
  : outcome (flow * frame * state) :=
  match k with
  | O => OutOfSteps
  | S k =>
      let n := length (stk st) in
      bind (eval k fns fr c st) (fun st =>
        bind (condition n st) (fun r =>
          let '(go, st) := r in
          if go then
            bind (execList (exec k fns) b fr st) (fun r =>
              match r with
              | (FOk, fr, st) => execWhile k fns c b fr st
              | _ => Done r
              end)
          else Done (FOk, fr, st)))
  end.

(** Main.cpp:39-119 [callScriptFunction] from the parsed file on, with no arguments: the output.
    [None]: there is no such function, and the result is empty. *)
Definition callScript (k : nat) (fns : list fndef) (f : name) : option (outcome (list Z)) :=
  match findVar f (functionTable fns) with
  | None => None
  | Some fd =>
      Some (match fd_params fd with
            | [] =>
                bind (execList (exec k fns) (fd_body fd) [] (St [] 0 [] None)) (fun r =>
                  let '(_, _, st) := r in
                  bind (leaveFunction 0 st) (fun st => Done (out st)))
            | _ => Crash
            end)
  end.
