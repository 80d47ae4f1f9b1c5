(* Property theorems C28 and C29: string comparison, slicing, searching, splitting. *)
From Verif Require Import StringViewSpec StringViewModel TextEncodingModel StringViewProofs.

(** C28. For strings below 2 GB, [compare] is negative, zero or positive exactly as the
    lexicographic order of unsigned bytes says. *)
Theorem C28_compare_lex : forall a b, zlen a < 2 ^ 31 -> zlen b < 2 ^ 31 ->
  (sv_compare a b < 0 <-> lex_lt a b) /\ (sv_compare a b = 0 <-> a = b) /\
  (0 < sv_compare a b <-> lex_lt b a).
Proof. exact (fun a b Ha Hb => conj (compare_lt a b Ha Hb) (conj (compare_eq a b Ha Hb) (compare_gt a b Ha Hb))). Qed.
Print Assumptions C28_compare_lex.
Example C28_case : sv_compare [97; 200] [97; 100; 1] = 100 /\ sv_compare [1] [1; 0] = -1.
Proof. split; reflexivity. Qed.

(** C28. That order is a strict total order. *)
Theorem C28_order_total :
  (forall a, ~ lex_lt a a) /\ (forall a b c, lex_lt a b -> lex_lt b c -> lex_lt a c) /\
  (forall a b, lex_lt a b \/ a = b \/ lex_lt b a).
Proof. exact (conj lex_irrefl (conj lex_trans lex_total)). Qed.
Print Assumptions C28_order_total.

(** C28, finding. The length difference is narrowed to 32 bits signed: beyond 2 GB the sign of
    [compare] is wrong. *)
Theorem C28_compare_huge_refuted : forall n, 2 ^ 31 < Z.of_nat n < 2 ^ 32 ->
  lex_lt [] (repeat 0 n) /\ 0 < sv_compare [] (repeat 0 n).
Proof. exact compare_wrap. Qed.
Print Assumptions C28_compare_huge_refuted.
Example C28_huge_case : 2 ^ 31 < Z.of_nat (Z.to_nat (2 ^ 31 + 1)) < 2 ^ 32.
Proof. rewrite Z2Nat.id by lia. lia. Qed.

(** C29. Slicing: [left]/[subStr] and [shortenedBy]/[right] cut the string in two at the given
    offset, and out-of-range offsets are caught. *)
Theorem C29_left_subStr : forall s n, 0 <= n <= zlen s ->
  exists a b, sv_left s n = Some a /\ sv_subStr1 s n = Some b /\ s = a ++ b /\ zlen a = n.
Proof. exact sv_left_right_split. Qed.
Print Assumptions C29_left_subStr.
Theorem C29_shortenedBy_right : forall s n, 0 <= n <= zlen s ->
  exists a b, sv_shortenedBy s n = Some a /\ sv_right s n = Some b /\ s = a ++ b /\ zlen b = n.
Proof. exact sv_shortened_right_split. Qed.
Print Assumptions C29_shortenedBy_right.
Theorem C29_slice_checked : forall s n, zlen s < n ->
  sv_left s n = None /\ sv_subStr1 s n = None /\ sv_shortenedBy s n = None /\ sv_right s n = None.
Proof. exact sv_slice_none. Qed.
Print Assumptions C29_slice_checked.
Example C29_slice_case : sv_left [1; 2; 3] 2 = Some [1; 2] /\ sv_right [1; 2; 3] 2 = Some [2; 3].
Proof. split; reflexivity. Qed.

(** C29. Reverse subscript: every negative index within the string, nothing else. *)
Theorem C29_back : forall s ofs, zlen s < 2 ^ 31 -> - 2 ^ 31 <= ofs < 2 ^ 31 ->
  sv_back s ofs = if (- zlen s <=? ofs) && (ofs <=? -1)
                  then nth_error s (Z.to_nat (zlen s + ofs)) else None.
Proof. exact sv_back_ok. Qed.
Print Assumptions C29_back.
Example C29_back_case : sv_back [5; 6; 7] (-1) = Some 7 /\ sv_back [5; 6; 7] (-4) = None /\ sv_back [5] 0 = None.
Proof. repeat split; reflexivity. Qed.

(** C29. [subStr(start, n)] stays inside the string when the end offset fits 32 bits ... *)
Theorem C29_subStr2_partial : forall len start n, 0 <= len < 2 ^ 32 -> 0 <= start -> 0 <= n -> start + n < 2 ^ 32 ->
  sv_subStr2_range len start n = if start + n <=? len then Some (start, n) else None.
Proof. exact sv_subStr2_ok. Qed.
Print Assumptions C29_subStr2_partial.
(** ... finding: when it does not, the check wraps and a view beyond the string is returned. *)
Theorem C29_subStr2_wrap_refuted : exists len start n, 0 <= start < 2 ^ 32 /\ 0 <= n < 2 ^ 32 /\
  len < start + n /\ sv_subStr2_range len start n = Some (start, n).
Proof. exists 10, 1, (2 ^ 32 - 1). repeat split; try lia; reflexivity. Qed.
Print Assumptions C29_subStr2_wrap_refuted.

(** C29. [findByte] returns the first match at or after [startPos], or -1 when there is none. *)
Theorem C29_findByte : forall s f from, 0 <= from ->
  (sv_findByte s f from = -1 /\ forall j, from <= j < zlen s -> f (nth (Z.to_nat j) s 0) = false) \/
  first_at f s from (sv_findByte s f from).
Proof. exact sv_findByte_spec. Qed.
Print Assumptions C29_findByte.
Example C29_find_case : sv_findByte [7; 9; 7; 9] (Z.eqb 9) 2 = 3 /\ sv_findByte [7; 9] (Z.eqb 9) 2 = -1.
Proof. split; reflexivity. Qed.

(** C29. [rfindByte] returns the last match at or before [startPos] (default: the whole string). *)
Theorem C29_rfindByte : forall s f p, 0 <= p < zlen s ->
  exists r, sv_rfindByte s f p = Some r /\
  ((r = -1 /\ forall j, 0 <= j <= p -> f (nth (Z.to_nat j) s 0) = false) \/ last_at f s p r).
Proof. exact sv_rfindByte_spec. Qed.
Print Assumptions C29_rfindByte.
Theorem C29_rfindByte_default : forall s f, zlen s < 2 ^ 31 ->
  exists r, sv_rfindByte_default s f = Some r /\
  ((r = -1 /\ forall j, 0 <= j < zlen s -> f (nth (Z.to_nat j) s 0) = false) \/
   last_at f s (zlen s - 1) r).
Proof. exact sv_rfindByte_default_spec. Qed.
Print Assumptions C29_rfindByte_default.
Example C29_rfind_case : sv_rfindByte_default [7; 9; 7; 9; 1] (Z.eqb 9) = Some 3 /\ sv_rfindByte_default [] (Z.eqb 9) = Some (-1).
Proof. split; reflexivity. Qed.

(** C29. [startsWith] and [endsWith]. *)
Theorem C29_startsWith : forall s p, sv_startsWith s p = true <-> exists r, s = p ++ r.
Proof. exact sv_startsWith_iff. Qed.
Print Assumptions C29_startsWith.
Theorem C29_endsWith : forall s p, sv_endsWith s p = true <-> exists r, s = r ++ p.
Proof. exact sv_endsWith_iff. Qed.
Print Assumptions C29_endsWith.
Example C29_starts_case : sv_startsWith [1; 2; 3] [1; 2] = true /\ sv_endsWith [1; 2; 3] [1; 2] = false.
Proof. split; reflexivity. Qed.

(** C29. [trim] removes exactly the maximal matching prefix and suffix. *)
Theorem C29_trim : forall f s, exists a b, s = a ++ sv_trim f true true s ++ b /\
  Forall (fun c => f c = true) a /\ Forall (fun c => f c = true) b /\
  (forall c r, sv_trim f true true s = c :: r -> f c = false) /\
  (forall c r, sv_trim f true true s = r ++ [c] -> f c = false).
Proof. exact sv_trim_spec. Qed.
Print Assumptions C29_trim.
Theorem C29_ltrim : forall f s, exists a, s = a ++ sv_trim f true false s /\
  Forall (fun c => f c = true) a /\ (forall c r, sv_trim f true false s = c :: r -> f c = false).
Proof. exact sv_ltrim_spec. Qed.
Print Assumptions C29_ltrim.
Theorem C29_rtrim : forall f s, exists b, s = sv_trim f false true s ++ b /\
  Forall (fun c => f c = true) b /\ (forall c r, sv_trim f false true s = r ++ [c] -> f c = false).
Proof. exact sv_rtrim_spec. Qed.
Print Assumptions C29_rtrim.
Example C29_trim_case : sv_trim isWhite true true [32; 9; 65; 32; 66; 10] = [65; 32; 66].
Proof. reflexivity. Qed.

(** C29. [splitByte] yields exactly the maximal runs free of the separator, in order; the
    specification determines the result. *)
Theorem C29_splitByte : forall sep s, words sep s (sv_splitByte sep s) /\
  forall ws, words sep s ws -> ws = sv_splitByte sep s.
Proof. exact (fun sep s => conj (sv_splitByte_words sep s) (fun ws H => words_unique sep s ws _ H (sv_splitByte_words sep s))). Qed.
Print Assumptions C29_splitByte.
Example C29_split_case : sv_splitByte 44 [44; 1; 2; 44; 44; 3] = [[1; 2]; [3]].
Proof. reflexivity. Qed.

(** C29. [join] concatenates with the separator in between, and splitting undoes it. *)
Theorem C29_join : forall sep ws, sv_join sep ws = joined sep ws.
Proof. exact sv_join_joined. Qed.
Print Assumptions C29_join.
Theorem C29_split_join : forall sep ws, Forall (fun w => w <> [] /\ ~ In sep w) ws ->
  sv_splitByte sep (sv_join [sep] ws) = ws.
Proof. exact split_join. Qed.
Print Assumptions C29_split_join.
Example C29_join_case : Forall (fun w => w <> [] /\ ~ In 44 w) [[1; 2]; [3]] /\ sv_join [44] [[1; 2]; [3]] = [1; 2; 44; 3].
Proof. split; [|reflexivity]. repeat constructor; try discriminate; cbn; intuition discriminate. Qed.

(** C29. [upperAsc]/[lowerAsc] change ASCII letters only, byte by byte. *)
Theorem C29_upperAsc : forall s,
  Forall2 (fun c d => (97 <= c <= 122 -> d = c - 32) /\ (~ 97 <= c <= 122 -> d = c)) s (sv_upperAsc s).
Proof. exact sv_upper_spec. Qed.
Print Assumptions C29_upperAsc.
Theorem C29_lowerAsc : forall s,
  Forall2 (fun c d => (65 <= c <= 90 -> d = c + 32) /\ (~ 65 <= c <= 90 -> d = c)) s (sv_lowerAsc s).
Proof. exact sv_lower_spec. Qed.
Print Assumptions C29_lowerAsc.

(** C29. [reversedBytes] reverses; [reversedUTF8] reverses the code points of well-formed text, and
    on any bytes at all it terminates without a failed assertion and only permutes bytes. *)
Theorem C29_reversedBytes : forall s, sv_reversedBytes s = rev s.
Proof. exact sv_reversedBytes_rev. Qed.
Print Assumptions C29_reversedBytes.
Theorem C29_reversedUTF8 : forall ps, Forall (fun p => 0 <= p < 0x200000) ps ->
  sv_reversedUTF8 (concat (map utf8_encode ps)) = Some (concat (map utf8_encode (rev ps))).
Proof. exact sv_reversedUTF8_points. Qed.
Print Assumptions C29_reversedUTF8.
Theorem C29_reversedUTF8_total : forall s, exists r, sv_reversedUTF8 s = Some r /\ Permutation r s.
Proof. exact sv_reversedUTF8_total. Qed.
Print Assumptions C29_reversedUTF8_total.
Example C29_reversed_case : sv_reversedUTF8 [0x41; 0xC3; 0xA9; 0xE2; 0x82; 0xAC] = Some [0xE2; 0x82; 0xAC; 0xC3; 0xA9; 0x41].
Proof. reflexivity. Qed.

(** C29. Null terminators. *)
Theorem C29_withNullTerminator : forall s, (exists t, sv_withNull s = t ++ [0]) /\
  (sv_includesNull s = false -> sv_withoutNull (sv_withNull s) = s).
Proof. exact (fun s => conj (sv_withNull_ends s) (sv_withoutNull_withNull s)). Qed.
Print Assumptions C29_withNullTerminator.
Example C29_null_case : sv_includesNull [65] = false /\ sv_withNull [65; 0] = [65; 0].
Proof. split; reflexivity. Qed.

(** C29. Concatenation and repetition, as long as the total length fits 32 bits ... *)
Theorem C29_concat_partial : forall a b, zlen a + zlen b < 2 ^ 32 -> sv_concat a b = Some (a ++ b).
Proof. exact sv_concat_ok. Qed.
Print Assumptions C29_concat_partial.
Theorem C29_repeat_partial : forall s n, zlen s * Z.of_nat n < 2 ^ 32 -> sv_repeat s n = Some (concat (repeat s n)).
Proof. exact sv_repeat_ok. Qed.
Print Assumptions C29_repeat_partial.
Example C29_concat_case : sv_concat [1] [2] = Some [1; 2] /\ sv_repeat [1; 2] 3 = Some [1; 2; 1; 2; 1; 2].
Proof. split; reflexivity. Qed.
(** ... finding: when it does not, the allocation is too small and the copy overruns it. *)
Theorem C29_concat_overflow_refuted : forall a b, 2 ^ 32 <= zlen a + zlen b -> sv_concat a b = None.
Proof. exact sv_concat_overflow. Qed.
Print Assumptions C29_concat_overflow_refuted.
Example C29_overflow_case : let a := repeat 0 (Z.to_nat (2 ^ 31)) in 2 ^ 32 <= zlen a + zlen a.
Proof. cbv zeta. rewrite zlen_repeat, Z2Nat.id by lia. lia. Qed.
