(* The texts that are Pylon documents and the trees they stand for, without reference to the parser. Each relation says:
   the list of bytes begins with such a thing, and this is the rest. *)
From Verif Require Export PylonModel.

Definition word_char (c : Z) : Prop :=
  c = 95 \/ c = 36 \/ c = 45 \/ c = 46 \/ 97 <= c <= 122 \/ 65 <= c <= 90 \/ 48 <= c <= 57 \/ 128 <= c.

(** What stands for a piece of text inside quotes [q]; strings in three quotes may have line breaks and up to two quotes
    in a row. *)
Inductive piece (q : Z) (three : bool) : list Z -> list Z -> Prop :=
| p_plain c : c <> q -> c <> 255 -> c <> 13 -> c <> 10 -> c <> 92 -> piece q three [c] [c]
| p_quote c : c = 92 \/ c = 39 \/ c = 34 -> piece q three [92; c] [c]
| p_escape_cr : piece q three [92; 114] [13]
| p_escape_lf : piece q three [92; 110] [10]
| p_escape_tab : piece q three [92; 116] [9]
| p_line : three = true -> piece q three [10] [10]
| p_return : three = true -> piece q three [13] [].
Inductive pieces (q : Z) (three : bool) : list Z -> list Z -> Prop :=
| ps_nil : pieces q three [] []
| ps_piece a v s w : piece q three a v -> pieces q three s w -> pieces q three (a ++ s) (v ++ w)
| ps_quotes k a v s w : three = true -> k = 1%nat \/ k = 2%nat -> piece q three a v -> pieces q three s w ->
    pieces q three (repeat q k ++ a ++ s) (repeat q k ++ v ++ w).

Inductive text_at : list Z -> list Z -> list Z -> Prop :=
| t_word w c rest : w <> [] -> hd 0 w <> 255 -> Forall word_char w -> ~ word_char c -> text_at (w ++ c :: rest) w (c :: rest)
| t_string q b v rest : q = 34 \/ q = 39 -> b <> [] -> pieces q false b v -> text_at (q :: b ++ q :: rest) v rest
| t_empty q rest : q = 34 \/ q = 39 -> (forall r, rest <> q :: r) -> text_at (q :: q :: rest) [] rest
| t_three q b v rest : q = 34 \/ q = 39 -> pieces q true b v -> text_at (q :: q :: q :: b ++ q :: q :: q :: rest) v rest.

Definition blank (c : Z) : Prop := c = 32 \/ c = 9 \/ c = 13.
Definition space (c : Z) : Prop := blank c \/ c = 10.
Definition separator (c : Z) : Prop := c = 44 \/ c = 59 \/ c = 10.

Inductive value_at : list Z -> node -> list Z -> Prop :=
| v_text s v rest : text_at s v rest -> value_at s (Text v) rest
| v_array s l rest : items_at s l rest -> value_at (91 :: s) (Array l) rest
| v_object s l rest : properties_at [] false s l rest -> value_at (123 :: s) (Object l) rest
(** The items of an array: values with any number of separators between them, also none. *)
with items_at : list Z -> list node -> list Z -> Prop :=
| i_skip c s l rest : blank c \/ separator c -> items_at s l rest -> items_at (c :: s) l rest
| i_close rest : items_at (93 :: rest) [] rest
| i_item s x s' l rest : value_at s x s' -> items_at s' l rest -> items_at s (x :: l) rest
(** The properties of an object after those with the keys [ks]; [sep]: a separator was read since the last one. *)
with properties_at : list (list Z) -> bool -> list Z -> list (list Z * node) -> list Z -> Prop :=
| o_blank ks sep c s l rest : blank c -> properties_at ks sep s l rest -> properties_at ks sep (c :: s) l rest
| o_separator ks sep c s l rest : separator c -> properties_at ks true s l rest -> properties_at ks sep (c :: s) l rest
| o_close ks sep rest : properties_at ks sep (125 :: rest) [] rest
| o_property ks sep s k p c p' s' x s'' l rest :
    ks = [] \/ sep = true -> ~ In k ks -> (length ks < 64)%nat ->
    text_at s k (p ++ c :: p' ++ s') -> Forall space p -> c = 58 \/ c = 61 -> Forall space p' -> value_at s' x s'' ->
    properties_at (ks ++ [k]) false s'' l rest -> properties_at ks sep s ((k, x) :: l) rest.

(** A whole text: one value, then nothing but spaces (or a byte 255 and anything after it). *)
Definition document (s : list Z) (n : node) : Prop :=
  exists p s' q rest, s = p ++ s' /\ Forall space p /\ value_at s' n (q ++ rest) /\ Forall space q /\ (rest = [] \/ exists r, rest = 255 :: r).

Scheme value_ind' := Induction for value_at Sort Prop
with items_ind' := Induction for items_at Sort Prop
with properties_ind' := Induction for properties_at Sort Prop.
Combined Scheme grammar_ind from value_ind', items_ind', properties_ind'.
