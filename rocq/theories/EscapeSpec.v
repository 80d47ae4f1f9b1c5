(* Specification vocabulary for escaping, independent of the printers and the parser. *)
From Verif Require Export Base TextEncodingSpec.

(** Text in which markup characters appear only as entities. *)
Inductive entity : list Z -> Z -> Prop :=
| ent_lt : entity [38; 108; 116; 59] 60
| ent_gt : entity [38; 103; 116; 59] 62
| ent_quot : entity [38; 113; 117; 111; 116; 59] 34
| ent_amp : entity [38; 97; 109; 112; 59] 38.

(** [xml_text e s]: [e] consists of plain bytes and entities and stands for the text [s]. *)
Inductive xml_text : list Z -> list Z -> Prop :=
| xml_nil : xml_text [] []
| xml_plain c e s : ~ In c [60; 62; 34; 38] -> xml_text e s -> xml_text (c :: e) (c :: s)
| xml_ent n c e s : entity n c -> xml_text e s -> xml_text (n ++ e) (c :: s).

(** No ASCII character is written in a longer UTF-8 form (such forms are illegal UTF-8). *)
Definition no_overlong_ascii (s : list Z) : Prop :=
  forall pre l post p, s = pre ++ l ++ post -> utf8_form l p -> p < 128 -> length l = 1%nat.

(** The documented C runtime rules for one argument of a Windows command line: [n] backslashes
    before a quote count half, an odd one makes the quote literal; other backslashes are literal;
    an unescaped quote toggles quoting, two of them in a row inside quotes are one literal quote;
    space and tab outside quotes end the argument. [bs] counts the backslashes just read. *)
Definition crt_cons (p : list Z) (r : list Z * list Z) : list Z * list Z := (p ++ fst r, snd r).
Fixpoint crt_arg (inq : bool) (bs : nat) (l : list Z) : list Z * list Z :=
  match l with
  | [] => (repeat 92 bs, [])
  | c :: r =>
      if c =? 92 then crt_arg inq (S bs) r
      else if c =? 34 then
        if Nat.odd bs then crt_cons (repeat 92 (Nat.div2 bs) ++ [34]) (crt_arg inq 0 r)
        else match inq, r with
             | true, 34 :: r2 => crt_cons (repeat 92 (Nat.div2 bs) ++ [34]) (crt_arg true 0 r2)
             | _, _ => crt_cons (repeat 92 (Nat.div2 bs)) (crt_arg (negb inq) 0 r)
             end
      else if ((c =? 32) || (c =? 9)) && negb inq then (repeat 92 bs, l)
      else crt_cons (repeat 92 bs ++ [c]) (crt_arg inq 0 r)
  end.
(** What may follow an argument on the command line. *)
Definition arg_end (rest : list Z) : Prop :=
  match rest with [] => True | c :: _ => c = 32 \/ c = 9 end.

(** Format strings: [formats fmt args out]. *)
Inductive formats : list Z -> list (list Z) -> list Z -> Prop :=
| fmt_nil : formats [] [] []
| fmt_lit c f a o : c <> 123 -> c <> 125 -> formats f a o -> formats (c :: f) a (c :: o)
| fmt_open f a o : formats f a o -> formats (123 :: 123 :: f) a (123 :: o)
| fmt_close f a o : formats f a o -> formats (125 :: 125 :: f) a (125 :: o)
| fmt_arg x f a o : formats f a o -> formats (123 :: 125 :: f) (x :: a) (x ++ o).
