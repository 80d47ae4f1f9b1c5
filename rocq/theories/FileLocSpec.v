(* What a line and column lookup must give: the result of scanning the text from its start. *)
From Verif Require Export FileLocModel.

(** The line and column after a character: a line feed starts a line, a tab goes to the next column that is a multiple of
    4, a carriage return takes no column. *)
Definition after (p line column : Z) : Z * Z :=
  if p =? 10 then (line + 1, 1) else if p =? 9 then (line, (column / 4 + 1) * 4) else if p =? 13 then (line, column) else (line, column + 1).

(** [scanned text ofs line column start]: scanning characters from the start of the text gets to offset [ofs], in line
    [line], which starts at offset [start], and column [column]. *)
Inductive scanned (text : list Z) : Z -> Z -> Z -> Z -> Prop :=
| scan_start : scanned text 0 1 1 0
| scan_char ofs line column start : scanned text ofs line column start -> ofs < zlen text ->
    let d := utf8_decode (skipn (Z.to_nat ofs) text) in
    let next := ofs + Z.of_nat (nbytes d) in
    scanned text next (fst (after (point d) line column)) (snd (after (point d) line column)) (if point d =? 10 then next else start).

(** For ASCII text: the part after the last line feed, and its width in columns. *)
Fixpoint lastLine (text : list Z) : list Z :=
  match text with
  | [] => []
  | c :: text => if existsb (Z.eqb 10) text then lastLine text else if c =? 10 then text else c :: text
  end.
Definition column (line : list Z) : Z := fold_left (fun col c => snd (after c 0 col)) line 1.
Definition ascii (text : list Z) : Prop := Forall (fun c => 0 <= c < 128) text.
