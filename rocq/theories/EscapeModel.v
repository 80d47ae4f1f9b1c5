(* Model of escaping printers and the quoted-string parser.
   RT = /repo/repos/plywood/src/runtime/ply-runtime:
   RT/io/impl/FormatString.cpp (printers) and RT/io/impl/TypeParser.cpp (parser). *)
From Verif Require Export Base TextEncodingModel StringViewModel.

(** FormatString.cpp:239 [digits]. *)
Definition hex_digit (n : Z) : Z := if n <? 10 then 48 + n else 87 + n.

(** FormatString.cpp:219-250: the text written for one decoded point whose source bytes are [src]. *)
Definition esc_point (p : Z) (src : list Z) : list Z :=
  if p =? 34 then [92; 34]
  else if p =? 92 then [92; 92]
  else if p =? 13 then [92; 114]
  else if p =? 10 then [92; 110]
  else if p =? 9 then [92; 116]
  else if 32 <=? p then src
  else [92; hex_digit (Z.land (Z.shiftr p 4) 0xf); hex_digit (Z.land p 0xf)].

(** FormatString.cpp:268-288: the same for XML. *)
Definition xml_point (p : Z) (src : list Z) : list Z :=
  if p =? 60 then [38; 108; 116; 59]                        (* &lt;   *)
  else if p =? 62 then [38; 103; 116; 59]                   (* &gt;   *)
  else if p =? 34 then [38; 113; 117; 111; 116; 59]         (* &quot; *)
  else if p =? 38 then [38; 97; 109; 112; 59]               (* &amp;  *)
  else src.

(** FormatString.cpp:212-254 and 261-292: the two printers share this loop over decoded points.
    [points] counts the points written. The loop consumes at least one byte per round, so the number
    of source bytes is enough fuel. *)
Fixpoint point_loop (f : Z -> list Z -> list Z) (fuel : nat) (maxPoints points : Z) (s : list Z) : list Z :=
  match fuel with
  | O => []
  | S fuel =>
      match s with
      | [] => []
      | _ :: _ =>
          if (0 <? maxPoints) && (maxPoints <=? points) then [46; 46; 46]
          else let d := utf8_decode s in
               f (point d) (firstn (nbytes d) s) ++
               point_loop f fuel maxPoints (points + 1) (skipn (nbytes d) s)
      end
  end.
(** FormatString.cpp:208-255 [TypePrinter<EscapedString>::print]. *)
Definition escapedString (s : list Z) (maxPoints : Z) : list Z := point_loop esc_point (length s) maxPoints 0 s.
(** FormatString.cpp:257-293 [TypePrinter<XMLEscape>::print]. *)
Definition xmlEscape (s : list Z) (maxPoints : Z) : list Z := point_loop xml_point (length s) maxPoints 0 s.

(** FormatString.cpp:307-325: the loop inside quotes; [bs] is [backslashCount]. At the end of the
    argument the pending backslashes are not written. *)
Fixpoint wincrt_loop (bs : nat) (s : list Z) : list Z :=
  match s with
  | [] => []
  | c :: r =>
      if c =? 92 then wincrt_loop (S bs) r
      else if c =? 34 then concat (repeat [92; 92] bs) ++ [92; 34] ++ wincrt_loop 0 r
      else repeat 92 bs ++ c :: wincrt_loop 0 r
  end.
(** FormatString.cpp:295-329 [TypePrinter<CmdLineArg_WinCrt>::print]. *)
Definition cmdLineArg (s : list Z) : list Z :=
  if existsb (fun c => isWhite c || (c =? 34)) s then 34 :: wincrt_loop 0 s ++ [34] else s.

(** TypeParser.h:76-85 [QuotedString::ErrorCode]. *)
Inductive qerr := NoOpeningQuote | UnexpectedEndOfLine | UnexpectedEndOfFile | BadEscapeSequence.

(** TypeParser.cpp:261-370: the loop. Result: text written, remaining input, errors reported in
    order (the stream's parse-error bit is set iff the list is not empty). *)
Fixpoint q_loop (quote : Z) (ins : list Z) (run : nat) (multi : bool) : list Z * list Z * list qerr :=
  match ins with
  | [] => ([], [], [UnexpectedEndOfFile])
  | c :: r =>
      if c =? quote then
        match run with
        | O => if multi then q_loop quote r 1 multi else ([], r, [])
        | _ => if (S run =? 3)%nat then
                 if multi then ([], r, []) else q_loop quote r 0 true
               else q_loop quote r (S run) multi
        end
      else if negb multi && (run =? 2)%nat then ([], ins, [])
      else
        let pre := if multi then repeat quote run else [] in
        let '(o, rest, e) :=
          if (c =? 13) || (c =? 10) then
            if multi then
              let '(o, rest, e) := q_loop quote r 0 multi in ((if c =? 10 then [c] else []) ++ o, rest, e)
            else ([], ins, [UnexpectedEndOfLine])
          else if c =? 92 then
            match r with
            | [] => ([], [], [UnexpectedEndOfFile])
            | code :: r2 =>
                if (code =? 13) || (code =? 10) then ([], r, [UnexpectedEndOfLine])
                else
                  let '(o, rest, e) := q_loop quote r2 0 multi in
                  if (code =? 92) || (code =? 39) || (code =? 34) then (code :: o, rest, e)
                  else if code =? 114 then (13 :: o, rest, e)
                  else if code =? 110 then (10 :: o, rest, e)
                  else if code =? 116 then (9 :: o, rest, e)
                  else (o, rest, BadEscapeSequence :: e)
            end
          else let '(o, rest, e) := q_loop quote r 0 multi in (c :: o, rest, e) in
        (pre ++ o, rest, e)
  end.
(** TypeParser.cpp:233-374 [FormatParser<QuotedString>::parse]; [single] is the AllowSingleQuote flag. *)
Definition parse_quoted (ins : list Z) (single : bool) : list Z * list Z * list qerr :=
  match ins with
  | [] => ([], [], [UnexpectedEndOfFile])
  | c :: r =>
      if (c =? 34) || (single && (c =? 39)) then q_loop c r 1 false else ([], ins, [NoOpeningQuote])
  end.

(** FormatString.cpp:109-145 [OutStream::formatInternal]. Arguments are given by the text their
    formatters print. [None] is a failed assertion. *)
Fixpoint format (fmt : list Z) (args : list (list Z)) : option (list Z) :=
  match fmt with
  | [] => match args with [] => Some [] | _ => None end
  | c :: r =>
      if c =? 123 then
        match r with
        | [] => None
        | d :: r2 =>
            if d =? 123 then option_map (cons 123) (format r2 args)
            else if d =? 125 then
              match args with
              | [] => None
              | a :: args => option_map (app a) (format r2 args)
              end
            else None
        end
      else if c =? 125 then
        match r with
        | [] => None
        | d :: r2 => if d =? 125 then option_map (cons 125) (format r2 args) else None
        end
      else option_map (cons c) (format r args)
  end.
