(* Model of the Pylon parser and writer: repos/plywood/src/pylon/pylon/pylon/Parse.cpp, Parse.h and Write.cpp.
   Simplifications: file offsets, the scopes and texts of error messages are left out, and so is the depth of the C++
   stack; numbers of items fit in 32 bits. The two hash maps of an object (the properties read so far, and the index of the
   object node) are represented by the list of properties. That is right up to 64 properties (HashMapProps, C18_small_maps;
   PylonNodeProps, C39); an object with more is the outcome [Beyond]. *)
From Verif Require Export Base TextEncodingModel EscapeModel.

(** Node.h:10-46: the trees. *)
Inductive node := Text (s : list Z) | Array (l : list node) | Object (l : list (list Z * node)).

(** What a call can do: return; read the type of a null node (Parse.cpp:398, 431, 476: [value->isValid()] with [value]
    empty), after an error was reported; loop for ever; fail an assertion; go beyond 64 properties. [OutOfFuel] is not an
    outcome of the code (PylonProofs shows that it does not happen). *)
Inductive res (A : Type) := Ok (a : A) | NullRead | Hangs | Asserts | Beyond | OutOfFuel.
Arguments Ok {A} a. Arguments NullRead {A}. Arguments Hangs {A}. Arguments Asserts {A}. Arguments Beyond {A}. Arguments OutOfFuel {A}.
Definition bind {A B} (x : res A) (k : A -> res B) : res B :=
  match x with Ok a => k a | NullRead => NullRead | Hangs => Hangs | Asserts => Asserts | Beyond => Beyond | OutOfFuel => OutOfFuel end.

(** The state of the parser is the list of the bytes from [readOfs] on, empty when [nextUnit] is -1 at the end of the text.
    Units are signed: byte 255 is read as -1 too, the end of the file (Parse.cpp:56, 470). *)

(** isAlnumUnit (Parse.cpp:11-14), of a byte; -1 counts as one too, as (u32) -1 >= 128. *)
Definition isAlnumUnit (c : Z) : bool :=
  (c =? 95) || (c =? 36) || (c =? 45) || (c =? 46) || ((97 <=? c) && (c <=? 122)) ||
  ((65 <=? c) && (c <=? 90)) || ((48 <=? c) && (c <=? 57)) || (128 <=? c).

(** Parse.h:43-57. *)
Inductive token := TInvalid | TOpenCurly | TCloseCurly | TOpenSquare | TCloseSquare | TColon | TEquals | TComma | TSemicolon
                 | TText (s : list Z) | TJunk | TNewLine | TEndOfFile.

(** readQuotedString (Parse.cpp:73-203), after the opening quote [q]: [run] is quoteRun. A string and the rest of the text;
    or an error, reported, and the rest; or the assertion of readEscapedHex (Parse.cpp:69). *)
Inductive quoted := QText (s rest : list Z) | QError (rest : list Z) | QAssert.
Definition qpre (p : list Z) (x : quoted) : quoted := match x with QText s r => QText (p ++ s) r | _ => x end.
Fixpoint readQuoted (q : Z) (s : list Z) (run : nat) (multi : bool) : quoted :=
  match s with
  | [] => if negb multi && (run =? 2)%nat then QText [] [] else QError []
  | c :: r =>
    if c =? q then
      match run with
      | O => if multi then readQuoted q r 1 multi else QText [] r
      | S _ => if (S run =? 3)%nat then if multi then QText [] r else readQuoted q r 0 true else readQuoted q r (S run) multi
      end
    else if negb multi && (run =? 2)%nat then QText [] s
    else
      qpre (if multi then repeat q run else [])
        (if c =? 255 then QError s
         else if (c =? 13) || (c =? 10) then
           if multi then qpre (if c =? 10 then [c] else []) (readQuoted q r 0 multi) else QError s
         else if c =? 92 then
           match r with
           | [] => QError []
           | code :: r2 =>
             if (code =? 255) || (code =? 13) || (code =? 10) then QError r2
             else if (code =? 92) || (code =? 39) || (code =? 34) then qpre [code] (readQuoted q r2 0 multi)
             else if code =? 114 then qpre [13] (readQuoted q r2 0 multi)
             else if code =? 110 then qpre [10] (readQuoted q r2 0 multi)
             else if code =? 116 then qpre [9] (readQuoted q r2 0 multi)
             else if code =? 120 then QAssert
             else QError r2
           end
         else qpre [c] (readQuoted q r 0 multi))
  end.

(** readLiteral (Parse.cpp:205-216). At the end of the text nextUnit is -1, which is an alphanumeric unit: the loop of lines
    210-212 does not end. *)
Fixpoint readLiteral (s : list Z) : res (list Z * list Z) :=
  match s with
  | [] => Hangs
  | c :: r => if isAlnumUnit c then bind (readLiteral r) (fun '(lit, rest) => Ok (c :: lit, rest)) else Ok ([], s)
  end.

(** readToken (Parse.cpp:218-271); nothing is ever pushed back. *)
Fixpoint readToken (tokenizeNewLine : bool) (s : list Z) : res (token * list Z) :=
  match s with
  | [] => Ok (TEndOfFile, s)
  | c :: r =>
    if (c =? 32) || (c =? 9) || (c =? 13) then readToken tokenizeNewLine r
    else if c =? 10 then if tokenizeNewLine then Ok (TNewLine, r) else readToken tokenizeNewLine r
    else if c =? 255 then Ok (TEndOfFile, s)
    else if c =? 123 then Ok (TOpenCurly, r)
    else if c =? 125 then Ok (TCloseCurly, r)
    else if c =? 91 then Ok (TOpenSquare, r)
    else if c =? 93 then Ok (TCloseSquare, r)
    else if c =? 58 then Ok (TColon, r)
    else if c =? 61 then Ok (TEquals, r)
    else if c =? 44 then Ok (TComma, r)
    else if c =? 59 then Ok (TSemicolon, r)
    else if (c =? 34) || (c =? 39) then
      match readQuoted c r 1 false with
      | QText t rest => Ok (TText t, rest)
      | QError rest => Ok (TInvalid, rest)
      | QAssert => Asserts
      end
    else if isAlnumUnit c then bind (readLiteral s) (fun '(lit, rest) => Ok (TText lit, rest))
    else Ok (TJunk, s)
  end.

Fixpoint list_eqb (a b : list Z) : bool :=
  match a, b with [], [] => true | x :: a, y :: b => (x =? y) && list_eqb a b | _, _ => false end.
Definition has (k : list Z) (items : list (list Z * node)) : bool := existsb (fun x => list_eqb (fst x) k) items.

(** readExpression (Parse.cpp:442-466) on the token [t]; readObject (319-408), from line 338 on, with the properties read so
    far and gotSeparator; readArray (410-440), from line 416 on, with the items read so far. toString of an Invalid token is a
    failed assertion (Parse.cpp:300). An empty result of readExpression is [NullRead] at once, as every caller looks at its
    type. *)
Fixpoint readExpression (fuel : nat) (t : token) (s : list Z) {struct fuel} : res (node * list Z) :=
  match fuel with
  | O => OutOfFuel
  | S fuel =>
    match t with
    | TOpenCurly => readObject fuel [] false s
    | TOpenSquare => readArray fuel [] s
    | TText x => Ok (Text x, s)
    | _ => NullRead
    end
  end
with readObject (fuel : nat) (items : list (list Z * node)) (gotSeparator : bool) (s : list Z) {struct fuel} : res (node * list Z) :=
  match fuel with
  | O => OutOfFuel
  | S fuel =>
    bind (readToken true s) (fun '(t, s) =>
    match t with
    | TCloseCurly => Ok (Object items, s)
    | TComma | TSemicolon | TNewLine => readObject fuel items true s
    | TText k =>
      if negb (match items with [] => true | _ => false end) && negb gotSeparator then NullRead
      else if has k items then NullRead
      else if (64 <=? length items)%nat then Beyond
      else
        bind (readToken false s) (fun '(colon, s) =>
        match colon with
        | TColon | TEquals =>
          bind (readToken false s) (fun '(t, s) =>
          bind (readExpression fuel t s) (fun '(v, s) =>
          readObject fuel (items ++ [(k, v)]) false s))
        | TInvalid => Asserts
        | _ => NullRead
        end)
    | TInvalid => Asserts
    | _ => NullRead
    end)
  end
with readArray (fuel : nat) (items : list node) (s : list Z) {struct fuel} : res (node * list Z) :=
  match fuel with
  | O => OutOfFuel
  | S fuel =>
    bind (readToken true s) (fun '(t, s) =>
    match t with
    | TCloseSquare => Ok (Array items, s)
    | TComma | TSemicolon | TNewLine => readArray fuel items s
    | _ => bind (readExpression fuel t s) (fun '(v, s) => readArray fuel (items ++ [v]) s)
    end)
  end.

(** parse (Parse.cpp:468-487). [Ok None]: an error was reported and the result has no root. *)
Definition parse (s : list Z) : res (option node) :=
  bind (readToken false s) (fun '(t, s1) =>
  bind (readExpression (2 * length s + 2) t s1) (fun '(root, s2) =>
  bind (readToken false s2) (fun '(next, _) =>
  match next with
  | TEndOfFile => Ok (Some root)
  | TInvalid => Asserts
  | _ => Ok None
  end))).

(** Write.cpp:17-21. *)
Definition indent (depth : nat) : list Z := concat (repeat [32; 32] depth).
(** Write.cpp:32, 59: the key or text in quotes (format is C49; EscapedString has no limit of points here). *)
Definition quote (s : list Z) : list Z := [34] ++ escapedString s 0 ++ [34].
(** WriteContext::write (Write.cpp:23-63). *)
Fixpoint write (depth : nat) (n : node) : list Z :=
  match n with
  | Text s => quote s
  | Array l =>
    [91; 10] ++
    (fix items l :=
       match l with
       | [] => []
       | x :: l => indent (S depth) ++ write (S depth) x ++ (match l with [] => [] | _ => [44] end) ++ [10] ++ items l
       end) l ++ indent depth ++ [93]
  | Object l =>
    [123; 10] ++
    (fix items l :=
       match l with
       | [] => []
       | (k, x) :: l => indent (S depth) ++ quote k ++ [58; 32] ++ write (S depth) x ++ (match l with [] => [] | _ => [44] end) ++ [10] ++ items l
       end) l ++ indent depth ++ [125]
  end.
(** toString (Write.cpp:66-75). *)
Definition toString (n : node) : list Z := write 0 n.
