(* What text conversion must do: decode the whole text point by point and encode the points. *)
From Verif Require Export TextEncodingSpec TextConvModel.

(** The points of a text decoded from its start, and the bytes at its end that are no point even at the end of a text. *)
Fixpoint pointsOf (fuel : nat) (e : encoding) (text : list Z) : list Z * list Z :=
  match fuel, text with
  | S fuel, _ :: _ =>
    let d := decode e text in
    if point d <? 0 then ([], text)
    else let (ps, t) := pointsOf fuel e (skipn (nbytes d) text) in (point d :: ps, t)
  | _, _ => ([], text)
  end.
Definition points (e : encoding) (text : list Z) : list Z := fst (pointsOf (length text) e text).
Definition whole (e : encoding) (text : list Z) : Prop := snd (pointsOf (length text) e text) = [].

(** The text with these points. *)
Definition encoded (e : encoding) (ps : list Z) : list Z := flat_map (encode e) ps.

(** What is left at the end of a text when its complete characters have been decoded: the start of a character that is
    not complete. *)
Fixpoint pendingOf (fuel : nat) (e : encoding) (text : list Z) : list Z :=
  match fuel, text with
  | S fuel, _ :: _ =>
    let d := decode e text in
    match stat d with Truncated => text | _ => pendingOf fuel e (skipn (nbytes d) text) end
  | _, _ => text
  end.
Definition pending (e : encoding) (text : list Z) : list Z := pendingOf (length text) e text.

(** The four encodings. *)
Definition known (e : encoding) : Prop := e = Enc_Bytes \/ e = Enc_UTF8 \/ exists be, e = Enc_UTF16 be.

(** No character is spread over three pieces: what is unfinished at the end of a piece started in that piece. *)
Definition cutsOk (e : encoding) (pieces : list (list Z)) : Prop :=
  forall a p b, pieces = a ++ p :: b -> p = [] \/ (length (pending e (concat a ++ p)) <= length p)%nat.

(** Writing the pieces of each text and flushing after each text. *)
Definition session (pieces : list (list Z)) : list wop := map Write pieces ++ [Flush].

(** A character that the encoding can hold. *)
Definition fits (e : encoding) (p : Z) : Prop := scalar p /\ (e = Enc_Bytes -> p < 256).
