(* How Crowbar scripts are written: which texts spell an expression, a statement, a script. *)
From Verif Require Export CrowbarParse.
From Verif Require Import NumTextSpec.

(** What may stand between tokens: blanks and comments; ends of lines only where they do not matter
    ([nl] = false). *)
Inductive gap (nl : bool) : list Z -> Prop :=
| gap_nil : gap nl []
| gap_blank c g : c = 32 \/ c = 9 \/ c = 13 -> gap nl g -> gap nl (c :: g)
| gap_comment t g : (forall a b, t <> a ++ [42; 47] ++ b) -> gap nl g -> gap nl ([47; 42] ++ t ++ [42; 47] ++ g)
| gap_newline g : nl = false -> gap nl g -> gap nl (10 :: g)
| gap_line t g : nl = false -> ~ In 10 t -> gap nl g -> gap nl ([47; 47] ++ t ++ 10 :: g).

(** The end of a line, possibly after a comment. *)
Inductive eol : list Z -> Prop :=
| eol_newline : eol [10]
| eol_line t : ~ In 10 t -> eol ([47; 47] ++ t ++ [10]).

(** Names: letters, digits, underscores and bytes above 127, not starting with a digit, no keyword. *)
Definition letter (c : Z) : Prop := 97 <= c <= 122 \/ 65 <= c <= 90 \/ c = 95 \/ 128 <= c.
Definition letterOrDigit (c : Z) : Prop := letter c \/ 48 <= c <= 57.
Definition word (n : name) : Prop :=
  match n with [] => False | c :: r => letter c /\ Forall letterOrDigit r end /\
  ~ In n [k_if; k_while; k_else; k_return].
(** Where a name, number or keyword may end. *)
Definition apart (s : list Z) : Prop := match s with [] => True | c :: _ => ~ letterOrDigit c end.

(** Literal text in a string: a backslash gives the next character any meaning but its own. *)
Inductive literal : list Z -> list Z -> Prop :=
| lit_nil : literal [] []
| lit_escaped c l s : literal l s -> literal (c :: l) (92 :: c :: s)
| lit_plain c l s : c <> 92 -> c <> 34 -> (c = 36 -> forall u, s <> 123 :: u) -> literal l s ->
    literal (c :: l) (c :: s).

Definition symbol (op : binop) : list Z :=
  match op with
  | OMul => [42] | ODiv => [47] | OMod => [37] | OAdd => [43] | OSub => [45]
  | OLt => [60] | OLe => [60; 61] | OGt => [62] | OGe => [62; 61] | OEq => [61; 61]
  | OAnd => [38; 38] | OOr => [124; 124]
  end.
(** How tightly operators bind, as in C. *)
Definition level (op : binop) : Z :=
  match op with
  | OMul | ODiv | OMod => 3
  | OAdd | OSub => 4
  | OLt | OLe | OGt | OGe => 6
  | OEq => 7
  | OAnd => 11
  | OOr => 12
  end.
Definition unsymbol (op : unop) : Z := match op with UNeg => 45 | UNot => 33 | UCompl => 126 end.

(** [spells nl lvl tail e s]: the text [s] is the expression [e], whose outermost operator has level
    [lvl] (0 if it is in parentheses or has none, 2 if it is unary), and ends in the operand of a
    unary operator if [tail] says so. Operators of the same level group to the left. Nothing that
    ends in the operand of a unary operator is followed by a binary operator, unless it is in
    parentheses: there the parser departs from the rules of C. *)
Inductive spells : bool -> Z -> bool -> expr -> list Z -> Prop :=
| sp_name nl g n : gap nl g -> word n -> spells nl 0 false (EName n) (g ++ n)
| sp_int nl g t v : gap nl g -> t <> [] -> Forall (fun c => 48 <= c <= 57) t -> denotes 10 t v -> v < 2 ^ 32 ->
    spells nl 0 false (EInt v) (g ++ t)
| sp_str nl g ps t : gap nl g -> spells_str ps t -> spells nl 0 false (EStr ps) (g ++ 34 :: t)
| sp_paren nl g lvl tail e s g' : gap nl g -> spells false lvl tail e s -> gap false g' ->
    spells nl 0 false e (g ++ 40 :: s ++ g' ++ [41])
| sp_prop nl e s g g' n : spells nl 0 false e s -> gap nl g -> gap nl g' -> word n ->
    spells nl 0 false (EProp e n) (s ++ g ++ 46 :: g' ++ n)
| sp_call nl f s g args t : spells nl 0 false f s -> gap nl g -> spells_args args t ->
    spells nl 0 false (ECall f args) (s ++ g ++ 40 :: t)
| sp_unary nl g op lvl tail e s : gap nl g -> spells nl lvl tail e s -> lvl <= 2 ->
    spells nl 2 true (EUn op e) (g ++ unsymbol op :: s)
| sp_binary nl op ll l s g lr tail r t : spells nl ll false l s -> ll <= level op -> gap nl g ->
    spells nl lr tail r t -> lr < level op -> (op = ODiv -> forall u, t <> 47 :: u) ->
    spells nl (level op) tail (EBin op l r) (s ++ g ++ symbol op ++ t)
(** Arguments, with the closing parenthesis. *)
with spells_args : list expr -> list Z -> Prop :=
| sa_none g : gap false g -> spells_args [] (g ++ [41])
| sa_last lvl tail a s g : spells false lvl tail a s -> gap false g -> spells_args [a] (s ++ g ++ [41])
| sa_more lvl tail a s g args t : spells false lvl tail a s -> gap false g -> args <> [] -> spells_args args t ->
    spells_args (a :: args) (s ++ g ++ 44 :: t)
(** The contents of a string, with the closing quote. *)
with spells_str : list (list Z * option expr) -> list Z -> Prop :=
| ss_end : spells_str [] [34]
| ss_literal l s : l <> [] -> literal l s -> spells_str [(l, None)] (s ++ [34])
| ss_embed l s lvl tail e t g ps u : literal l s -> spells false lvl tail e t -> gap false g -> spells_str ps u ->
    spells_str ((l, Some e) :: ps) (s ++ [36; 123] ++ t ++ g ++ 125 :: u).

(** Statements that end with a line, a semicolon or the block. *)
Inductive spells_simple : stmt -> list Z -> Prop :=
| sm_assign lvl tail l s g lvl' tail' r t : spells true lvl tail l s -> gap true g -> spells true lvl' tail' r t ->
    spells_simple (SAssign l r) (s ++ g ++ 61 :: t)
| sm_eval lvl tail e s : spells true lvl tail e s -> spells_simple (SEval e) s
| sm_return g lvl tail e s : gap true g -> spells true lvl tail e s -> apart s ->
    spells_simple (SReturn e) (g ++ k_return ++ s).

(** Statements with bodies; [closed]: the text ends with a brace. *)
Inductive spells_control : bool -> stmt -> list Z -> Prop :=
| sc_if g lvl tail c s closed b t : gap true g -> spells true lvl tail c s -> apart s -> spells_body closed b t ->
    spells_control closed (SIf c b None) (g ++ k_if ++ s ++ t)
| sc_else g lvl tail c s closed b t g' closed' b' t' : gap true g -> spells true lvl tail c s -> apart s ->
    spells_body closed b t -> gap false g' -> (closed = false -> g' <> []) -> spells_body closed' b' t' ->
    spells_control closed' (SIf c b (Some b')) (g ++ k_if ++ s ++ t ++ g' ++ k_else ++ t')
| sc_while g lvl tail c s closed b t : gap true g -> spells true lvl tail c s -> apart s -> spells_body closed b t ->
    spells_control closed (SWhile c b) (g ++ k_while ++ s ++ t)
(** A body: a block, or a return statement without braces. *)
with spells_body : bool -> list stmt -> list Z -> Prop :=
| sb_block g b t : gap false g -> spells_block false b t -> spells_body true b (g ++ 123 :: t)
| sb_return g lvl tail e s : gap false g -> g <> [] -> spells true lvl tail e s -> apart s ->
    spells_body false [SReturn e] (g ++ k_return ++ s)
(** The contents of a block, with the closing brace; [sep]: they start with the end of a statement. *)
with spells_block : bool -> list stmt -> list Z -> Prop :=
| sk_end sep g : gap true g -> spells_block sep [] (g ++ [125])
| sk_line sep g l b t : gap true g -> eol l -> spells_block false b t -> spells_block sep b (g ++ l ++ t)
| sk_semicolon sep g b t : gap true g -> spells_block false b t -> spells_block sep b (g ++ 59 :: t)
| sk_simple s st b t : spells_simple s st -> spells_block true b t -> spells_block false (s :: b) (st ++ t)
| sk_control closed s st b t : spells_control closed s st -> spells_block (negb closed) b t ->
    spells_block false (s :: b) (st ++ t).

(** Parameters, with the closing parenthesis. *)
Inductive spells_params : list name -> list Z -> Prop :=
| pa_none g : gap false g -> spells_params [] (g ++ [41])
| pa_last g p g' : gap false g -> word p -> gap false g' -> spells_params [p] (g ++ p ++ g' ++ [41])
| pa_more g p g' ps t : gap false g -> word p -> gap false g' -> ps <> [] -> spells_params ps t ->
    spells_params (p :: ps) (g ++ p ++ g' ++ 44 :: t).

Inductive spells_script : list fndef -> list Z -> Prop :=
| sf_end g : gap false g -> spells_script [] g
| sf_fn g g1 n g2 ps t g3 b u fns v : gap false g -> gap false g1 -> g1 <> [] -> word n -> gap false g2 ->
    spells_params ps t -> gap false g3 -> spells_block false b u -> spells_script fns v ->
    spells_script (FnDef n ps b :: fns) (g ++ k_fn ++ g1 ++ n ++ g2 ++ 40 :: t ++ g3 ++ 123 :: u ++ v).
