(* Model of StringView: RT/string/StringView.h and StringView.cpp
   (RT = /repo/repos/plywood/src/runtime/ply-runtime). A view is the list of its bytes; the pointer
   is not modelled. [None] stands for a failed PLY_ASSERT or an access outside the view. *)
From Verif Require Export Base TextEncodingModel.

(** StringView.h:24-26. *)
Definition isWhite (c : Z) : bool := (c =? 32) || (c =? 9) || (c =? 13) || (c =? 10).
(** StringView.h:28-30. Bytes from 128 up are negative as [char], hence not letters. *)
Definition isAsciiLetter (c : Z) : bool :=
  ((65 <=? c) && (c <=? 90)) || ((97 <=? c) && (c <=? 122)).
(** StringView.h:32-34. *)
Definition isDecimalDigit (c : Z) : bool := (48 <=? c) && (c <=? 57).

(** StringView.h:132-135 [operator[]]. *)
Definition sv_at (s : list Z) (i : Z) : option Z :=
  if (0 <=? i) && (i <? zlen s) then nth_error s (Z.to_nat i) else None.

(** StringView.h:141-144 [back]. *)
Definition sv_back (s : list Z) (ofs : Z) : option Z :=
  if u32 (- ofs - 1) <? zlen s then nth_error s (Z.to_nat (zlen s + ofs)) else None.

(** StringView.h:157-161 [offsetHead]. *)
Definition sv_offsetHead (s : list Z) (n : Z) : option (list Z) :=
  if n <=? zlen s then Some (skipn (Z.to_nat n) s) else None.

(** StringView.h:167-170 [offsetBack], for [ofs <= 0] (a positive [ofs] fails the assertion). *)
Definition sv_offsetBack (s : list Z) (ofs : Z) : option (list Z) :=
  if u32 (- ofs) <=? zlen s then Some (firstn (Z.to_nat (zlen s + ofs)) s) else None.

(** StringView.h:215-218 [subStr(start)]. *)
Definition sv_subStr1 (s : list Z) (start : Z) : option (list Z) :=
  if start <=? zlen s then Some (skipn (Z.to_nat start) s) else None.

(** What [subStr(start, numBytes)] returns: the offset and length of the resulting view, after the
    two assertions of StringView.h:219-223; the sum is computed in [u32]. *)
Definition sv_subStr2_range (len start n : Z) : option (Z * Z) :=
  if start <=? len then
    if u32 (start + n) <=? len then Some (start, n) else None
  else None.

(** StringView.h:238-241 [left]. *)
Definition sv_left (s : list Z) (n : Z) : option (list Z) :=
  if n <=? zlen s then Some (firstn (Z.to_nat n) s) else None.
(** StringView.h:246-249 [shortenedBy]. *)
Definition sv_shortenedBy (s : list Z) (n : Z) : option (list Z) :=
  if n <=? zlen s then Some (firstn (Z.to_nat (zlen s - n)) s) else None.
(** StringView.h:254-257 [right]. *)
Definition sv_right (s : list Z) (n : Z) : option (list Z) :=
  if n <=? zlen s then Some (skipn (Z.to_nat (zlen s - n)) s) else None.

(** StringView.h:264-284 [findByte]: the loop from position [i] over the rest of the view. *)
Fixpoint find_from (f : Z -> bool) (i : Z) (rest : list Z) : Z :=
  match rest with
  | [] => -1
  | c :: r => if f c then i else find_from f (i + 1) r
  end.
Definition sv_findByte (s : list Z) (f : Z -> bool) (startPos : Z) : Z :=
  find_from f startPos (skipn (Z.to_nat startPos) s).

(** StringView.h:292-308 [rfindByte]: the loop walks down; the argument is the reversed prefix
    ending at position [i]. *)
Fixpoint rfind_from (f : Z -> bool) (i : Z) (rprefix : list Z) : Z :=
  match rprefix with
  | [] => -1
  | c :: r => if f c then i else rfind_from f (i - 1) r
  end.
(** [None]: [startPos] is beyond the last byte, so the first read is outside the view. The default
    argument is [numBytes - 1] (StringView.h:312-315), which is -1 after conversion for an empty
    view. *)
Definition sv_rfindByte (s : list Z) (f : Z -> bool) (startPos : Z) : option Z :=
  if startPos <? zlen s
  then Some (rfind_from f startPos (rev (firstn (Z.to_nat (startPos + 1)) s)))
  else None.
Definition sv_rfindByte_default (s : list Z) (f : Z -> bool) : option Z :=
  sv_rfindByte s f (s32 (u32 (zlen s - 1))).

(** memcmp equality over equal lengths. *)
Fixpoint bytes_eqb (a b : list Z) : bool :=
  match a, b with
  | [], [] => true
  | x :: a, y :: b => (x =? y) && bytes_eqb a b
  | _, _ => false
  end.

(** StringView.cpp:13-17 [startsWith]. *)
Definition sv_startsWith (s other : list Z) : bool :=
  if (length s <? length other)%nat then false
  else bytes_eqb (firstn (length other) s) other.
(** StringView.cpp:19-23 [endsWith]. *)
Definition sv_endsWith (s other : list Z) : bool :=
  if (length s <? length other)%nat then false
  else bytes_eqb (skipn (length s - length other) s) other.

(** StringView.cpp:25-39 [trim]: the two loops move the ends inwards. *)
Fixpoint trim_left (f : Z -> bool) (s : list Z) : list Z :=
  match s with
  | c :: r => if f c then trim_left f r else s
  | [] => []
  end.
Definition sv_trim (f : Z -> bool) (left right : bool) (s : list Z) : list Z :=
  let s := if left then trim_left f s else s in
  if right then rev (trim_left f (rev s)) else s.

(** StringView.cpp:41-63 [splitByte]: [start] holds the bytes since [splitStart], reversed. *)
Fixpoint split_loop (sep : Z) (s : list Z) (start : option (list Z)) (result : list (list Z))
  : list (list Z) :=
  match s with
  | [] => match start with Some w => result ++ [rev w] | None => result end
  | c :: r =>
      if c =? sep then
        match start with
        | Some w => split_loop sep r None (result ++ [rev w])
        | None => split_loop sep r None result
        end
      else
        match start with
        | Some w => split_loop sep r (Some (c :: w)) result
        | None => split_loop sep r (Some [c]) result
        end
  end.
Definition sv_splitByte (sep : Z) (s : list Z) : list (list Z) := split_loop sep s None [].

(** StringView.cpp:65-75 [upperAsc]. *)
Definition sv_upperAsc (s : list Z) : list Z :=
  map (fun c => if (97 <=? c) && (c <=? 122) then c + (65 - 97) else c) s.
(** StringView.cpp:77-87 [lowerAsc]. *)
Definition sv_lowerAsc (s : list Z) : list Z :=
  map (fun c => if (65 <=? c) && (c <=? 90) then c + (97 - 65) else c) s.
(** StringView.cpp:89-97 [reversedBytes]: copies from the last byte to the first. *)
Fixpoint reversed_loop (n : nat) (s : list Z) : list Z :=
  match n with
  | O => []
  | S m => nth m s 0 :: reversed_loop m s
  end.
Definition sv_reversedBytes (s : list Z) : list Z := reversed_loop (length s) s.
(** StringView.cpp:99-105 [filterBytes]. *)
Definition sv_filterBytes (f : Z -> Z) (s : list Z) : list Z := map f s.

(** StringView.cpp:107-118 [join]. *)
Fixpoint join_loop (sep : list Z) (first : bool) (comps : list (list Z)) (out : list Z) : list Z :=
  match comps with
  | [] => out
  | c :: r => join_loop sep false r ((if first then out else out ++ sep) ++ c)
  end.
Definition sv_join (sep : list Z) (comps : list (list Z)) : list Z := join_loop sep true comps [].

(** StringView.cpp:120-138 [reversedUTF8]: [None] is one of its assertions failing. [room] is
    [dstView.numBytes]; fuel is the length of the view, which is enough because every round copies
    at least one byte. *)
Fixpoint reversedUTF8_loop (fuel : nat) (src : list Z) (room : nat) (out : list Z) : option (list Z) :=
  match room with
  | O => match src with [] => Some out | _ => None end
  | _ =>
      match fuel with
      | O => None
      | S f =>
          let n := utf8_back src in
          if (n =? 0)%nat then None
          else if (length src <? n)%nat || (room <? n)%nat then None
          else reversedUTF8_loop f (firstn (length src - n) src) (room - n)
                 (out ++ skipn (length src - n) src)
      end
  end.
Definition sv_reversedUTF8 (s : list Z) : option (list Z) :=
  reversedUTF8_loop (length s) s (length s) [].

(** StringView.h:399-401 [includesNullTerminator]. *)
Definition sv_includesNull (s : list Z) : bool :=
  if (0 <? length s)%nat then nth (length s - 1) s 1 =? 0 else false.
(** StringView.cpp:140-148 [withNullTerminator]. *)
Definition sv_withNull (s : list Z) : list Z := if sv_includesNull s then s else s ++ [0].
(** StringView.cpp:150-155 [withoutNullTerminator]. *)
Definition sv_withoutNull (s : list Z) : list Z :=
  if sv_includesNull s then firstn (length s - 1) s else s.

(** StringView.cpp:157-170 [compare]: first differing byte decides, else the difference of the
    lengths, an unsigned subtraction returned as [s32]. *)
Fixpoint compare_loop (a b : list Z) : option Z :=
  match a, b with
  | x :: a, y :: b => if x - y =? 0 then compare_loop a b else Some (x - y)
  | _, _ => None
  end.
Definition sv_compare (a b : list Z) : Z :=
  match compare_loop a b with
  | Some d => d
  | None => s32 (u32 (zlen a - zlen b))
  end.

(** StringView.cpp:172-177 [operator+]: [allocate] receives the sum in [u32]; [None] when the
    copies overrun it. *)
Definition sv_concat (a b : list Z) : option (list Z) :=
  if zlen a + zlen b <=? u32 (zlen a + zlen b) then Some (a ++ b) else None.

(** StringView.cpp:179-187 [operator*]. *)
Fixpoint repeat_loop (s : list Z) (count : nat) (out : list Z) : list Z :=
  match count with
  | O => out
  | S n => repeat_loop s n (out ++ s)
  end.
Definition sv_repeat (s : list Z) (count : nat) : option (list Z) :=
  if zlen s * Z.of_nat count <=? u32 (zlen s * Z.of_nat count) then Some (repeat_loop s count []) else None.
