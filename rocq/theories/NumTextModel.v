(* Model of integer printing and parsing.
   RT/io/impl/FormatString.cpp, RT/io/impl/TypeParser.{h,cpp}, RT/io/InStream.h.
   An input stream is the list of bytes not yet read (see InStreamModel.v for the block layer);
   an output stream is the list of bytes written. *)
From Verif Require Export Base StringViewModel.

(** FormatString.cpp:15-19 [toDigit]: the digit table as arithmetic; '?' from 36 up. *)
Definition toDigit (d : Z) (capitalize : bool) : Z :=
  if d <=? 35 then
    if d <? 10 then 48 + d else if capitalize then 65 + (d - 10) else 97 + (d - 10)
  else 63.

(** FormatString.cpp:29-35: the digit loop; the buffer is filled from its end, so the digits
    written so far are [buf]. [None]: the assertion [digitIndex > 0] fails (buffer of 64 full).
    Fuel is the number of free buffer positions plus one. *)
Fixpoint digit_loop (fuel : nat) (value radix : Z) (cap : bool) (buf : list Z) : option (list Z) :=
  if value =? 0 then Some buf
  else match fuel with
       | O => None
       | S f =>
           let quotient := value / radix in
           let digit := u32 (u64 (value - u64 (quotient * radix))) in
           digit_loop f quotient radix cap (toDigit digit cap :: buf)
       end.

(** FormatString.cpp:21-39 [printString(u64)]; [None] is a failed assertion. *)
Definition print_u64 (value radix : Z) (cap : bool) : option (list Z) :=
  if 2 <=? radix then
    if value =? 0 then Some [48] else digit_loop 64 value radix cap []
  else None.

(** FormatString.cpp:41-48 [printString(s64)]. [None] is a failed assertion or, for the least
    value, the signed overflow of [-value] (undefined behaviour). *)
Definition print_s64 (value radix : Z) (cap : bool) : option (list Z) :=
  if 0 <=? value then print_u64 (u64 value) radix cap
  else if value =? - 2 ^ 63 then None
  else match print_u64 (u64 (- value)) radix cap with
       | Some l => Some (45 :: l)
       | None => None
       end.

(** TypeParser.cpp:13-30 [DigitTable] as arithmetic. *)
Definition digitValue (c : Z) : Z :=
  if (48 <=? c) && (c <=? 57) then c - 48
  else if (65 <=? c) && (c <=? 90) then c - 65 + 10
  else if (97 <=? c) && (c <=? 122) then c - 97 + 10
  else 255.

(** Result of a parse: value, remaining input, parse-error flag raised by this call. *)
Record parsed := { pval : Z; prest : list Z; perr : bool }.

(** TypeParser.cpp:92-109: the loop of [TypeParser<u64>::parse]; returns (result, rest,
    anyDigits, overflow). *)
Fixpoint u64_loop (ins : list Z) (radix result : Z) (any overflow : bool) : Z * list Z * bool * bool :=
  match ins with
  | [] => (result, [], any, overflow)
  | c :: r =>
      let digit := digitValue c in
      if radix <=? digit then (result, ins, any, overflow)
      else
        let ov := (0x71c71c71c71c71b <? result) && ((2 ^ 64 - 1 - digit) / radix <? result) in
        u64_loop r radix (u64 (result * radix + digit)) true (overflow || ov)
  end.

(** TypeParser.cpp:85-115 [TypeParser<u64>::parse]; [None] is the failed assertion on the radix. *)
Definition parse_u64 (ins : list Z) (radix : Z) : option parsed :=
  if (0 <? radix) && (radix <=? 36) then
    let '(result, rest, any, ov) := u64_loop ins radix 0 false false in
    if negb any || ov then Some {| pval := 0; prest := rest; perr := true |}
    else Some {| pval := result; prest := rest; perr := false |}
  else None.

(** TypeParser.cpp:117-138 [TypeParser<s64>::parse]. [None]: failed assertion, or the signed
    overflow of [-(s64) unsignedComponent] when the component is exactly 2^63. *)
Definition parse_s64 (ins : list Z) (radix : Z) : option parsed :=
  let '(negate, ins) :=
    match ins with c :: r => if c =? 45 then (true, r) else (false, ins) | [] => (false, []) end in
  match parse_u64 ins radix with
  | None => None
  | Some p =>
      let sv := s64 (pval p) in
      if negate then
        if sv =? - 2 ^ 63 then None
        else let result := - sv in
             Some {| pval := result; prest := prest p; perr := perr p || (0 <? result) |}
      else Some {| pval := sv; prest := prest p; perr := perr p || (sv <? 0) |}
  end.

(** TypeParser.h:56-70 [TypeParser_Integral]: narrowing by the destination type's conversion. *)
Definition narrow (conv : Z -> Z) (p : option parsed) : option parsed :=
  match p with
  | None => None
  | Some p =>
      let result := conv (pval p) in
      if result =? pval p then Some {| pval := result; prest := prest p; perr := perr p |}
      else Some {| pval := 0; prest := prest p; perr := true |}
  end.
(** TypeParser.h:71-82. *)
Definition parse_u32 ins radix := narrow u32 (parse_u64 ins radix).
Definition parse_u16 ins radix := narrow u16 (parse_u64 ins radix).
Definition parse_u8 ins radix := narrow u8 (parse_u64 ins radix).
Definition parse_s32 ins radix := narrow s32 (parse_s64 ins radix).
Definition parse_s16 ins radix := narrow s16 (parse_s64 ins radix).
Definition parse_s8 ins radix := narrow s8 (parse_s64 ins radix).

(** InStream.h:491-499 [StringView::to<T>(defaultValue)]: trim, parse, require the end of input and
    no error. [atEOF] is set exactly when the parser has asked for a byte at the end of the view;
    both parsers end their loop by such a request or at a byte they do not accept. *)
Definition sv_to (parse : list Z -> Z -> option parsed) (s : list Z) (default : Z) : option Z :=
  match parse (sv_trim isWhite true true s) 10 with
  | None => None
  | Some p =>
      Some (match prest p with [] => if perr p then default else pval p | _ => default end)
  end.
