(* Model of the parser of the Crowbar script language.
   SRC/crowbar/ply-crowbar/{Tokenizer.h,Tokenizer.cpp,Parser.h,Parser.cpp}.

   Simplifications. A position in the source is the rest of the source. The tokenizer stores the
   tokens it has read and gives them again after [rewindTo]; the parser only ever rewinds to the last
   token it has read, so the model reads that token again from its first byte (stored ends of lines
   are skipped when they are to be ignored, just as unread ones). Token indices, file offsets and
   labels are left out. After the first error, which is always reported, the parser goes on to look
   for more errors; the model stops there ([Reject]). Hooks of the host for blocks and expression
   traits of its own are not modelled (Main.cpp:47-54 has none). *)
From Verif Require Export CrowbarModel.

(** Tokenizer.h:13-60 [TokenType]; the contents of strings are read by [readStr]. The types of which
    the tokenizer never makes a token are left out. *)
Inductive tok :=
| TInvalid | TEOF | TNewLine | TIdent (n : name) | TNum (t : list Z) | TBegin
| TLCurly | TRCurly | TLParen | TRParen | TSemi | TDot | TComma
| TEqual | TSlashEq | TLt | TLe | TGt | TGe | TEqEq
| TPlus | TMinus | TStar | TSlash | TPercent | TBang | TTilde | TBar | TOrOr | TAmp | TAndAnd.

(** Tokenizer.cpp:288 and 184-185; bytes above 127 are negative chars. *)
Definition identStart (c : Z) : bool :=
  (128 <=? c) || ((97 <=? c) && (c <=? 122)) || ((65 <=? c) && (c <=? 90)) || (c =? 95).
Definition isDigit (c : Z) : bool := (48 <=? c) && (c <=? 57).
Definition identChar (c : Z) : bool := identStart c || isDigit c.
(** The loops of readIdentifier, Tokenizer.cpp:182-190, and readNumeric, :202-209. *)
Fixpoint span (f : Z -> bool) (s : list Z) : list Z * list Z :=
  match s with
  | c :: r => if f c then let '(a, b) := span f r in (c :: a, b) else ([], s)
  | [] => ([], [])
  end.

(** Where in the source the tokenizer is: between tokens, in a line comment (Tokenizer.cpp:153-161),
    or in a C comment (:163-176), having just seen a star or not. *)
Inductive mode := Between | InLine | InC (star : bool).

(** A token that is one byte, or two if the next byte is [d]. *)
Definition oneOrTwo (d : Z) (two one : tok) (start r : list Z) : tok * list Z * list Z :=
  match r with
  | c :: r' => if c =? d then (two, start, r') else (one, start, r)
  | [] => (one, start, r)
  end.

(** Tokenizer.cpp:263-484 [readToken], outside of strings: the token, the source from its first byte
    on, and the source after it. [nl]: ends of lines are tokens ([tokenizeNewLine]). *)
Fixpoint readTok (nl : bool) (m : mode) (src : list Z) : tok * list Z * list Z :=
  match src with
  | [] => (TEOF, [], [])
  | c :: r =>
      let between :=
        if identStart c then let '(a, b) := span identChar r in (TIdent (c :: a), src, b)
        else if isDigit c then let '(a, b) := span isDigit r in (TNum (c :: a), src, b)
        else if c =? 10 then if nl then (TNewLine, src, r) else readTok nl Between r
        else if (c =? 13) || (c =? 9) || (c =? 32) then readTok nl Between r
        else if c =? 59 then (TSemi, src, r)
        else if c =? 34 then (TBegin, src, r)
        else if c =? 47 then
          match r with
          | d :: r' =>
              if d =? 47 then readTok nl InLine r'
              else if d =? 42 then readTok nl (InC false) r'
              else if d =? 61 then (TSlashEq, src, r')
              else (TSlash, src, r)
          | [] => (TSlash, src, r)
          end
        else if c =? 37 then (TPercent, src, r)
        else if c =? 33 then (TBang, src, r)
        else if c =? 126 then (TTilde, src, r)
        else if c =? 123 then (TLCurly, src, r)
        else if c =? 125 then (TRCurly, src, r)
        else if c =? 40 then (TLParen, src, r)
        else if c =? 41 then (TRParen, src, r)
        else if c =? 46 then (TDot, src, r)
        else if c =? 44 then (TComma, src, r)
        else if c =? 43 then (TPlus, src, r)
        else if c =? 45 then (TMinus, src, r)
        else if c =? 42 then (TStar, src, r)
        else if c =? 61 then oneOrTwo 61 TEqEq TEqual src r
        else if c =? 60 then oneOrTwo 61 TLe TLt src r
        else if c =? 62 then oneOrTwo 61 TGe TGt src r
        else if c =? 124 then oneOrTwo 124 TOrOr TBar src r
        else if c =? 38 then oneOrTwo 38 TAndAnd TAmp src r
        else (TInvalid, src, r) in
      match m with
      | Between => between
      | InLine => if c =? 10 then between else readTok nl InLine r
      | InC star => if star && (c =? 47) then readTok nl Between r else readTok nl (InC (c =? 42)) r
      end
  end.
Definition token (nl : bool) (src : list Z) : tok * list Z * list Z := readTok nl Between src.

(** Tokenizer.cpp:216-261 [readString]: the next token inside a string and the source after it;
    [None] is the failed assertion at the end of the file. *)
Inductive strtok := SEnd (rest : list Z) | SEmbed (rest : list Z) | SLit (t rest : list Z).
Fixpoint readStr (acc src : list Z) : option strtok :=
  match src with
  | [] => None
  | c :: r =>
      if c =? 92 then match r with d :: r' => readStr (acc ++ [d]) r' | [] => None end
      else if c =? 34 then match acc with [] => Some (SEnd r) | _ => Some (SLit acc src) end
      else if c =? 36 then
        match r with
        | d :: r' =>
            if d =? 123 then match acc with [] => Some (SEmbed r') | _ => Some (SLit acc src) end
            else readStr (acc ++ [36]) r
        | [] => readStr (acc ++ [36]) r
        end
      else readStr (acc ++ [c]) r
  end.

(** How parsing ends: with a result and the source after it; with an error; in a failed assertion; or
    the nesting allowed to the model is used up (which never happens, [C75_parsing_ends]). *)
Inductive pres (A : Type) := Ok (a : A) (rest : list Z) | Reject | Broken | Deep.
Arguments Ok {A}. Arguments Reject {A}. Arguments Broken {A}. Arguments Deep {A}.
Definition pbind {A B} (x : pres A) (f : A -> list Z -> pres B) : pres B :=
  match x with Ok a rest => f a rest | Reject => Reject | Broken => Broken | Deep => Deep end.

(** Parser.cpp:97-126 [tokenToBinaryOp] and :128-139 [tokenToUnaryOp]. *)
Definition binaryOf (t : tok) : option binop :=
  match t with
  | TLt => Some OLt | TLe => Some OLe | TGt => Some OGt | TGe => Some OGe | TEqEq => Some OEq
  | TPlus => Some OAdd | TMinus => Some OSub | TStar => Some OMul | TSlash => Some ODiv
  | TPercent => Some OMod | TOrOr => Some OOr | TAndAnd => Some OAnd
  | _ => None
  end.
Definition unaryOf (t : tok) : option unop :=
  match t with TMinus => Some UNeg | TBang => Some UNot | TTilde => Some UCompl | _ => None end.
(** Parser.cpp:31-46 [BinaryOpPrecedence], and Limits<u32>::Max, the default of Parser.h:47. *)
Definition precedence (op : binop) : Z :=
  match op with
  | OMul | ODiv | OMod => 3
  | OAdd | OSub => 4
  | OLt | OLe | OGt | OGe => 6
  | OEq => 7
  | OAnd => 11
  | OOr => 12
  end.
Definition anyLevel : Z := 2 ^ 32 - 1.

(** Parser.cpp:158-161: the embedded expression goes to the last piece if that has none yet. *)
Fixpoint setEmbed (ps : list (list Z * option expr)) (e : expr) : list (list Z * option expr) :=
  match ps with
  | [] => [([], Some e)]
  | [(t, None)] => [(t, Some e)]
  | p :: ps => p :: setEmbed ps e
  end.

(** The keywords, Parser.cpp:307-310 and :518. *)
Definition k_if : name := [105; 102].
Definition k_while : name := [119; 104; 105; 108; 101].
Definition k_else : name := [101; 108; 115; 101].
Definition k_return : name := [114; 101; 116; 117; 114; 110].
Definition k_fn : name := [102; 110].

(** Parser.cpp:185-288 [parseExpression]: the first operand ([pExpr]) and the loop that extends it
    ([pLoop]); :60-95 [parseArgumentList] ([pArgs], [pArgList]); :141-183 [parseInterpolatedString]
    ([pStr]). An operand of a unary operator is parsed with the default level. *)
Fixpoint pExpr (k : nat) (nl : bool) (outer : Z) (src : list Z) {struct k} : pres expr :=
  match k with
  | O => Deep
  | S k =>
      let '(t, _, rest) := token nl src in
      match t with
      | TLParen =>
          pbind (pExpr k false anyLevel rest) (fun e src =>
            match token false src with
            | (TRParen, _, src) => pLoop k nl outer e src
            | _ => Reject
            end)
      | TIdent n => pLoop k nl outer (EName n) rest
      | TNum t =>
          match sv_to parse_u32 t 0 with
          | Some v => pLoop k nl outer (EInt v) rest
          | None => Broken
          end
      | TBegin => pbind (pStr k [] rest) (fun ps src => pLoop k nl outer (EStr ps) src)
      | _ =>
          match unaryOf t with
          | None => Reject
          | Some op => pbind (pExpr k nl anyLevel rest) (fun e src => pLoop k nl outer (EUn op e) src)
          end
      end
  end
with pLoop (k : nat) (nl : bool) (outer : Z) (e : expr) (src : list Z) {struct k} : pres expr :=
  match k with
  | O => Deep
  | S k =>
      let '(t, start, rest) := token nl src in
      match t with
      | TLParen => pbind (pArgs k rest) (fun args src => pLoop k nl outer (ECall e args) src)
      | TDot =>
          match token nl rest with
          | (TIdent n, _, rest) => pLoop k nl outer (EProp e n) rest
          | _ => Reject
          end
      | _ =>
          match binaryOf t with
          | None => Ok e start
          | Some op =>
              if outer <=? precedence op then Ok e start
              else pbind (pExpr k nl (precedence op) rest) (fun r src => pLoop k nl outer (EBin op e r) src)
          end
      end
  end
with pArgs (k : nat) (src : list Z) {struct k} : pres (list expr) :=
  match k with
  | O => Deep
  | S k =>
      match token false src with
      | (TRParen, _, rest) => Ok [] rest
      | (_, start, _) => pArgList k [] start
      end
  end
with pArgList (k : nat) (args : list expr) (src : list Z) {struct k} : pres (list expr) :=
  match k with
  | O => Deep
  | S k =>
      pbind (pExpr k false anyLevel src) (fun a src =>
        match token false src with
        | (TRParen, _, rest) => Ok (args ++ [a]) rest
        | (TComma, _, rest) => pArgList k (args ++ [a]) rest
        | _ => Reject
        end)
  end
with pStr (k : nat) (ps : list (list Z * option expr)) (src : list Z) {struct k}
  : pres (list (list Z * option expr)) :=
  match k with
  | O => Deep
  | S k =>
      match readStr [] src with
      | None => Broken
      | Some (SLit t rest) => pStr k (ps ++ [(t, None)]) rest
      | Some (SEmbed rest) =>
          pbind (pExpr k false anyLevel rest) (fun e src =>
            match token false src with
            | (TRCurly, _, rest) => pStr k (setEmbed ps e) rest
            | _ => Reject
            end)
      | Some (SEnd rest) => Ok ps rest
      end
  end.

(** Parser.cpp:371-379: the end of a statement. *)
Definition endOfStatement (s : stmt) (src : list Z) : pres stmt :=
  match token true src with
  | (TNewLine, _, rest) | (TSemi, _, rest) => Ok s rest
  | (TRCurly, start, _) => Ok s start
  | _ => Reject
  end.

(** Parser.cpp:306-387 [parseStatement] ([pStmt]); :389-446 [parseStatementBlock] for the body of an
    if or while ([pBody]), whose braces may be left out around a return statement; the statements of a
    block, :397-418 ([pItems]). *)
Fixpoint pStmt (k : nat) (src : list Z) {struct k} : pres stmt :=
  match k with
  | O => Deep
  | S k =>
      let '(t, start, rest) := token true src in
      let word := match t with TIdent n => n | _ => [] end in
      if bytes_eqb word k_if then
        pbind (pExpr k true anyLevel rest) (fun c src =>
          pbind (pBody k src) (fun t src =>
            match token false src with
            | (TIdent n, start, rest) =>
                if bytes_eqb n k_else then pbind (pBody k rest) (fun f src => Ok (SIf c t (Some f)) src)
                else Ok (SIf c t None) start
            | (_, start, _) => Ok (SIf c t None) start
            end))
      else if bytes_eqb word k_while then
        pbind (pExpr k true anyLevel rest) (fun c src =>
          pbind (pBody k src) (fun b src => Ok (SWhile c b) src))
      else if bytes_eqb word k_return then
        pbind (pExpr k true anyLevel rest) (fun e src => Ok (SReturn e) src)
      else
        pbind (pExpr k true anyLevel start) (fun l src =>
          match token true src with
          | (TEqual, _, rest) =>
              pbind (pExpr k true anyLevel rest) (fun r src => endOfStatement (SAssign l r) src)
          | (_, start, _) => endOfStatement (SEval l) start
          end)
  end
with pBody (k : nat) (src : list Z) {struct k} : pres (list stmt) :=
  match k with
  | O => Deep
  | S k =>
      match token false src with
      | (TLCurly, _, rest) => pItems k [] rest
      | (_, start, _) =>
          pbind (pStmt k start) (fun s src =>
            match s with SReturn _ => Ok [s] src | _ => Reject end)
      end
  end
with pItems (k : nat) (b : list stmt) (src : list Z) {struct k} : pres (list stmt) :=
  match k with
  | O => Deep
  | S k =>
      match token true src with
      | (TNewLine, _, rest) | (TSemi, _, rest) => pItems k b rest
      | (TRCurly, _, rest) => Ok b rest
      | (TEOF, _, _) => Reject
      | (_, start, _) => pbind (pStmt k start) (fun s src => pItems k (b ++ [s]) src)
      end
  end.

(** Parser.cpp:448-476 [parseParameterList], and the closing parenthesis, :505-507. *)
Fixpoint pParams (k : nat) (ps : list name) (src : list Z) {struct k} : pres (list name) :=
  match k with
  | O => Deep
  | S k =>
      match token false src with
      | (TIdent p, _, rest) =>
          match token false rest with
          | (TRParen, _, rest) => Ok (ps ++ [p]) rest
          | (TComma, _, rest) => pParams k (ps ++ [p]) rest
          | _ => Reject
          end
      | (TRParen, _, rest) => match ps with [] => Ok [] rest | _ => Reject end
      | _ => Reject
      end
  end.

(** Parser.cpp:478-515 [parseFunctionDefinition], after the keyword. *)
Definition pFn (k : nat) (src : list Z) : pres fndef :=
  match token false src with
  | (TIdent n, _, rest) =>
      match token false rest with
      | (TLParen, _, rest) =>
          pbind (pParams k [] rest) (fun ps src =>
            match token false src with
            | (TLCurly, _, rest) => pbind (pItems k [] rest) (fun b src => Ok (FnDef n ps b) src)
            | _ => Reject
            end)
      | _ => Reject
      end
  | _ => Reject
  end.

(** Parser.cpp:517-540 [parseFile]. *)
Fixpoint pFile (k : nat) (fns : list fndef) (src : list Z) {struct k} : pres (list fndef) :=
  match k with
  | O => Deep
  | S k =>
      match token false src with
      | (TEOF, _, rest) => Ok fns rest
      | (TIdent n, _, rest) =>
          if bytes_eqb n k_fn then pbind (pFn k rest) (fun f src => pFile k (fns ++ [f]) src) else Reject
      | _ => Reject
      end
  end.
Definition parseFile (src : list Z) : pres (list fndef) := pFile (5 * length src + 5) [] src.

(** Main.cpp:39-119 [callScriptFunction] from the source on. *)
Inductive reply := NotParsed | Failed | NoSuchFunction | Ran (o : outcome (list Z)).
Definition runScript (k : nat) (src f : list Z) : reply :=
  match parseFile src with
  | Ok fns _ => match callScript k fns f with None => NoSuchFunction | Some o => Ran o end
  | Reject => NotParsed
  | Broken | Deep => Failed
  end.
