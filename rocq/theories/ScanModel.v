(* Model of low-level scanning: RT/io/impl/TypeParser.cpp (RT = /repo/repos/plywood/src/runtime/ply-runtime).
   The input stream is the list of bytes not yet read. *)
From Verif Require Export Base.

(** TypeParser.cpp:35-38 [match]: bit [c & 31] of word [c >> 5] of a 256-bit mask. *)
Definition mask_match (c : Z) (mask : list Z) : bool :=
  Z.testbit (nth (Z.to_nat (Z.shiftr c 5)) mask 0) (Z.land c 31).

(** TypeParser.cpp:40-48 [scanUsingMask]: returns the remaining input. *)
Fixpoint scanUsingMask (ins : list Z) (mask : list Z) (invert : bool) : list Z :=
  match ins with
  | [] => []
  | c :: r => if Bool.eqb (mask_match c mask) invert then ins else scanUsingMask r mask invert
  end.
(** TypeParser.cpp:33 [WhitespaceMask]. *)
Definition WhitespaceMask : list Z := [0x2600; 0x1; 0; 0; 0; 0; 0; 0].

(** TypeParser.cpp:50-58 [scanUsingCallback]. *)
Fixpoint scanUsingCallback (ins : list Z) (f : Z -> bool) : list Z :=
  match ins with
  | [] => []
  | c :: r => if f c then scanUsingCallback r f else ins
  end.

(** TypeParser.cpp:63-79: the loop; [matched] is [matchedUnits]. Returns (found, remaining input). *)
Fixpoint special_loop (ins special : list Z) (matched : nat) : bool * list Z :=
  match ins with
  | [] => (false, [])
  | c :: r =>
      if c =? nth matched special (-1) then
        if (length special <=? S matched)%nat then (true, r) else special_loop r special (S matched)
      else special_loop r special 0
  end.
(** TypeParser.cpp:60-80 [scanUpToAndIncludingSpecial]; [None] is one of the two assertions failing
    (empty terminator, or its first byte reoccurs in it). *)
Definition scanSpecial (ins special : list Z) : option (bool * list Z) :=
  match special with
  | [] => None
  | c0 :: tl => if existsb (Z.eqb c0) tl then None else Some (special_loop ins special 0)
  end.
(** TypeParser.h:123-129 [FormatParser<Line>::parse]. *)
Definition parse_line (ins : list Z) : option (bool * list Z) := scanSpecial ins [10].

(** TypeParser.h:109-111 the flag bits. *)
Definition WithDollarSign : Z := 1.
Definition WithDash : Z := 2.

(** TypeParser.cpp:377-383: the initial mask, whose word 1 depends on the flags. *)
Definition id_word1 (flags : Z) : Z :=
  Z.lor (if Z.land flags WithDollarSign =? 0 then 0 else 0x10)
        (if Z.land flags WithDash =? 0 then 0 else 0x2000).
Definition id_mask (w1 : Z) : list Z :=
  [0; w1; 0x87fffffe; 0x7fffffe; 0xffffffff; 0xffffffff; 0xffffffff; 0xffffffff].

(** TypeParser.cpp:385-396: the loop; returns the remaining input and the final word 1. *)
Fixpoint id_loop (ins : list Z) (w1 : Z) (first : bool) : list Z * Z :=
  match ins with
  | [] => ([], w1)
  | c :: r =>
      if mask_match c (id_mask w1)
      then id_loop r (if first then Z.lor w1 0x3ff0000 else w1) false
      else (ins, w1)
  end.
(** TypeParser.cpp:376-403 [FormatParser<Identifier>::parse]: (result, remaining input); a [false]
    result also raises the parse error. *)
Definition parse_identifier (ins : list Z) (flags : Z) : bool * list Z :=
  let '(rest, w1) := id_loop ins (id_word1 flags) true in
  (negb (w1 =? 0), rest).
