(* Property theorems C06, C07, C08: integers as text. *)
From Verif Require Import NumTextSpec NumTextModel NumTextProofs.

(** C06. Every 64-bit unsigned integer, printed in any radix 2..36 in either case, is the
    canonical numeral of the value. *)
Theorem C06_print_u64_canonical : forall v radix cap, 0 <= v < 2 ^ 64 -> 2 <= radix <= 36 ->
  exists l, print_u64 v radix cap = Some l /\ canonical radix l v.
Proof. exact print_u64_canonical. Qed.
Print Assumptions C06_print_u64_canonical.

(** C06. Parsing it back, before the end of input or any non-digit, returns the value. *)
Theorem C06_u64_roundtrip : forall v radix cap rest, 0 <= v < 2 ^ 64 -> 2 <= radix <= 36 -> stops radix rest ->
  exists l, print_u64 v radix cap = Some l /\
    parse_u64 (l ++ rest) radix = Some {| pval := v; prest := rest; perr := false |}.
Proof. exact u64_roundtrip. Qed.
Print Assumptions C06_u64_roundtrip.
Example C06_case : print_u64 (2 ^ 64 - 1) 36 true = Some [51;87;53;69;49;49;50;54;52;83;71;83;70] /\ stops 36 [32].
Proof. split; [reflexivity|]. intros d H. unfold char_digit in H. lia. Qed.

(** C07. Parsing an unsigned 64-bit integer: exact value, or an error on overflow; the digits and
    nothing else are consumed. Every input splits into digits and a rest that stops. *)
Theorem C07_parse_u64_digits : forall radix l n rest,
  1 <= radix <= 36 -> denotes radix l n -> l <> [] -> stops radix rest ->
  parse_u64 (l ++ rest) radix =
  Some (if n <? 2 ^ 64 then {| pval := n; prest := rest; perr := false |}
        else {| pval := 0; prest := rest; perr := true |}).
Proof. exact parse_u64_digits. Qed.
Print Assumptions C07_parse_u64_digits.
Theorem C07_parse_u64_no_digits : forall radix ins, 1 <= radix <= 36 -> stops radix ins ->
  parse_u64 ins radix = Some {| pval := 0; prest := ins; perr := true |}.
Proof. exact parse_u64_nodigits. Qed.
Print Assumptions C07_parse_u64_no_digits.
Theorem C07_every_input_splits : forall radix ins, 1 <= radix <= 36 ->
  exists l rest n, ins = l ++ rest /\ denotes radix l n /\ stops radix rest.
Proof. exact split_digits. Qed.
Print Assumptions C07_every_input_splits.
Example C07_case : parse_u64 [49;56;52;52;54;55;52;52;48;55;51;55;48;57;53;53;49;54;49;54] 10
   = Some {| pval := 0; prest := []; perr := true |} /\
   parse_u64 [49;56;52;52;54;55;52;52;48;55;51;55;48;57;53;53;49;54;49;53] 10
   = Some {| pval := 2 ^ 64 - 1; prest := []; perr := false |}.
Proof. split; reflexivity. Qed.
Example C07_denotes_case : denotes 16 [70; 102] 255.
Proof.
  apply (den_snoc 16 [70] 15 102 15); [|right; right; lia|lia].
  apply (den_snoc 16 [] 0 70 15); [constructor|right; left; lia|lia].
Qed.

(** C07. Narrow unsigned types. *)
Theorem C07_parse_u32 : forall radix l n rest,
  1 <= radix <= 36 -> denotes radix l n -> l <> [] -> stops radix rest ->
  parse_u32 (l ++ rest) radix =
  Some (if n <=? 2 ^ 32 - 1 then {| pval := n; prest := rest; perr := false |}
        else {| pval := 0; prest := rest; perr := true |}).
Proof. exact (fun radix l n rest => narrow_unsigned u32 _ radix l n rest (fits_u 32 ltac:(lia)) ltac:(lia)). Qed.
Print Assumptions C07_parse_u32.
Theorem C07_parse_u16 : forall radix l n rest,
  1 <= radix <= 36 -> denotes radix l n -> l <> [] -> stops radix rest ->
  parse_u16 (l ++ rest) radix =
  Some (if n <=? 2 ^ 16 - 1 then {| pval := n; prest := rest; perr := false |}
        else {| pval := 0; prest := rest; perr := true |}).
Proof. exact (fun radix l n rest => narrow_unsigned u16 _ radix l n rest (fits_u 16 ltac:(lia)) ltac:(lia)). Qed.
Print Assumptions C07_parse_u16.
Theorem C07_parse_u8 : forall radix l n rest,
  1 <= radix <= 36 -> denotes radix l n -> l <> [] -> stops radix rest ->
  parse_u8 (l ++ rest) radix =
  Some (if n <=? 2 ^ 8 - 1 then {| pval := n; prest := rest; perr := false |}
        else {| pval := 0; prest := rest; perr := true |}).
Proof. exact (fun radix l n rest => narrow_unsigned u8 _ radix l n rest (fits_u 8 ltac:(lia)) ltac:(lia)). Qed.
Print Assumptions C07_parse_u8.

(** C07. Signed types: error exactly outside the range, exact value inside. The digit string "-2^63"
    is excluded: there the code negates the least 64-bit integer (see C08). *)
Theorem C07_parse_s64_partial : forall radix (neg : bool) l n rest,
  1 <= radix <= 36 -> denotes radix l n -> l <> [] -> stops radix rest -> ~ (neg = true /\ n = 2 ^ 63) ->
  exists p, parse_s64 ((if neg then [45] else []) ++ l ++ rest) radix = Some p /\ prest p = rest /\
    (perr p = false <-> - 2 ^ 63 <= (if neg then - n else n) < 2 ^ 63) /\
    (perr p = false -> pval p = if neg then - n else n).
Proof. exact parse_s64_digits. Qed.
Print Assumptions C07_parse_s64_partial.
Theorem C07_parse_s32_partial : forall radix (neg : bool) l n rest,
  1 <= radix <= 36 -> denotes radix l n -> l <> [] -> stops radix rest -> ~ (neg = true /\ n = 2 ^ 63) ->
  exists p, parse_s32 ((if neg then [45] else []) ++ l ++ rest) radix = Some p /\ prest p = rest /\
    (perr p = false <-> - 2 ^ 31 <= (if neg then - n else n) <= 2 ^ 31 - 1) /\
    (perr p = false -> pval p = if neg then - n else n).
Proof.
  exact (fun radix neg l n rest => narrow_signed s32 _ _ radix neg l n rest (fits_s 32 ltac:(lia)) ltac:(lia) ltac:(lia)).
Qed.
Print Assumptions C07_parse_s32_partial.
Theorem C07_parse_s16_partial : forall radix (neg : bool) l n rest,
  1 <= radix <= 36 -> denotes radix l n -> l <> [] -> stops radix rest -> ~ (neg = true /\ n = 2 ^ 63) ->
  exists p, parse_s16 ((if neg then [45] else []) ++ l ++ rest) radix = Some p /\ prest p = rest /\
    (perr p = false <-> - 2 ^ 15 <= (if neg then - n else n) <= 2 ^ 15 - 1) /\
    (perr p = false -> pval p = if neg then - n else n).
Proof.
  exact (fun radix neg l n rest => narrow_signed s16 _ _ radix neg l n rest (fits_s 16 ltac:(lia)) ltac:(lia) ltac:(lia)).
Qed.
Print Assumptions C07_parse_s16_partial.
Theorem C07_parse_s8_partial : forall radix (neg : bool) l n rest,
  1 <= radix <= 36 -> denotes radix l n -> l <> [] -> stops radix rest -> ~ (neg = true /\ n = 2 ^ 63) ->
  exists p, parse_s8 ((if neg then [45] else []) ++ l ++ rest) radix = Some p /\ prest p = rest /\
    (perr p = false <-> - 2 ^ 7 <= (if neg then - n else n) <= 2 ^ 7 - 1) /\
    (perr p = false -> pval p = if neg then - n else n).
Proof.
  exact (fun radix neg l n rest => narrow_signed s8 _ _ radix neg l n rest (fits_s 8 ltac:(lia)) ltac:(lia) ltac:(lia)).
Qed.
Print Assumptions C07_parse_s8_partial.
Example C07_signed_case :
  parse_s8 [45; 49; 50; 56; 44] 10 = Some {| pval := -128; prest := [44]; perr := false |} /\
  parse_s8 [45; 49; 50; 57] 10 = Some {| pval := 0; prest := []; perr := true |}.
Proof. split; reflexivity. Qed.

(** C07. Converting a whole string: surrounding white space is ignored; a decimal numeral below 2^64
    gives its value; anything else gives the default. *)
Theorem C07_to_u64 : forall ws1 l n ws2 default,
  Forall (fun c => isWhite c = true) ws1 -> Forall (fun c => isWhite c = true) ws2 ->
  denotes 10 l n -> l <> [] ->
  sv_to parse_u64 (ws1 ++ l ++ ws2) default = Some (if n <? 2 ^ 64 then n else default).
Proof. exact to_u64_spec. Qed.
Print Assumptions C07_to_u64.
Theorem C07_to_u64_reject : forall s default, (forall ws1 l n ws2, s = ws1 ++ l ++ ws2 ->
    Forall (fun c => isWhite c = true) ws1 -> Forall (fun c => isWhite c = true) ws2 ->
    l <> [] -> denotes 10 l n -> 2 ^ 64 <= n) ->
  sv_to parse_u64 s default = Some default.
Proof. exact to_u64_reject. Qed.
Print Assumptions C07_to_u64_reject.
Example C07_to_case : sv_to parse_u64 [32; 49; 50; 51; 10] 7 = Some 123 /\ sv_to parse_u64 [49; 97] 7 = Some 7.
Proof. split; reflexivity. Qed.

(** C08. Signed printing and parsing, every value but the least. *)
Theorem C08_print_s64 : forall v radix cap, - 2 ^ 63 < v < 2 ^ 63 -> 2 <= radix <= 36 ->
  exists l, canonical radix l (Z.abs v) /\
    print_s64 v radix cap = Some (if v <? 0 then 45 :: l else l).
Proof. exact print_s64_canonical. Qed.
Print Assumptions C08_print_s64.
Theorem C08_s64_roundtrip_partial : forall v radix cap rest, - 2 ^ 63 < v < 2 ^ 63 -> 2 <= radix <= 36 -> stops radix rest ->
  exists l, print_s64 v radix cap = Some l /\
    parse_s64 (l ++ rest) radix = Some {| pval := v; prest := rest; perr := false |}.
Proof. exact s64_roundtrip. Qed.
Print Assumptions C08_s64_roundtrip_partial.
Theorem C08_to_s64_roundtrip_partial : forall v default, - 2 ^ 63 < v < 2 ^ 63 ->
  exists l, print_s64 v 10 false = Some l /\ sv_to parse_s64 l default = Some v.
Proof. exact to_s64_roundtrip. Qed.
Print Assumptions C08_to_s64_roundtrip_partial.
Example C08_case : print_s64 (-255) 16 false = Some [45; 102; 102].
Proof. reflexivity. Qed.

(** C08, finding. Printing the least 64-bit integer, and parsing its numeral, both negate it:
    signed overflow, undefined behaviour. *)
Theorem C08_s64_min_refuted : print_s64 (- 2 ^ 63) 10 false = None /\
  parse_s64 (45 :: [57;50;50;51;51;55;50;48;51;54;56;53;52;55;55;53;56;48;56]) 10 = None.
Proof. split; reflexivity. Qed.
Print Assumptions C08_s64_min_refuted.
