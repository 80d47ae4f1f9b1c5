(* Specification vocabulary for text encodings, independent of the model's functions. *)
From Verif Require Export Base.

(** A Unicode scalar value. *)
Definition scalar (p : Z) : Prop := 0 <= p < 0xD800 \/ 0xE000 <= p < 0x110000.

(** A continuation byte carries six bits. *)
Definition cont_byte (b : Z) : Prop := 0x80 <= b < 0xC0.

(** The UTF-8 bit layout: which byte sequence carries which number. Overlong forms are
    included; [utf8_shortest] excludes them. *)
Inductive utf8_form : list Z -> Z -> Prop :=
| form1 b : 0 <= b < 0x80 -> utf8_form [b] b
| form2 b c1 : 0xC0 <= b < 0xE0 -> cont_byte c1 ->
    utf8_form [b; c1] ((b - 0xC0) * 64 + (c1 - 0x80))
| form3 b c1 c2 : 0xE0 <= b < 0xF0 -> cont_byte c1 -> cont_byte c2 ->
    utf8_form [b; c1; c2] ((b - 0xE0) * 4096 + (c1 - 0x80) * 64 + (c2 - 0x80))
| form4 b c1 c2 c3 : 0xF0 <= b < 0xF8 -> cont_byte c1 -> cont_byte c2 -> cont_byte c3 ->
    utf8_form [b; c1; c2; c3]
      ((b - 0xF0) * 262144 + (c1 - 0x80) * 4096 + (c2 - 0x80) * 64 + (c3 - 0x80)).

Definition utf8_shortest (l : list Z) (p : Z) : Prop :=
  utf8_form l p /\ forall l', utf8_form l' p -> (length l <= length l')%nat.

(** The number of bytes announced by a lead byte; [None] for a byte that cannot start a
    sequence (a stray continuation byte, or 0xF8..0xFF). *)
Definition announced (b : Z) : option nat :=
  if b <? 0x80 then Some 1%nat
  else if b <? 0xC0 then None
  else if b <? 0xE0 then Some 2%nat
  else if b <? 0xF0 then Some 3%nat
  else if b <? 0xF8 then Some 4%nat
  else None.

(** UTF-16: a code unit as two bytes in the given order. *)
Definition unit_bytes (be : bool) (u : Z) : list Z :=
  if be then [u / 256; u mod 256] else [u mod 256; u / 256].

(** UTF-16 layout of a scalar value. *)
Definition utf16_layout (be : bool) (p : Z) : list Z :=
  if p <? 0x10000 then unit_bytes be p
  else unit_bytes be (0xD800 + (p - 0x10000) / 1024) ++ unit_bytes be (0xDC00 + (p - 0x10000) mod 1024).
