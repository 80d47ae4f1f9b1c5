(* Model of the text encodings.
   RT/string/TextEncoding.h and RT/string/TextEncoding.cpp. *)
From Verif Require Export Base.

(** RT/string/TextEncoding.h:11-25 [DecodeResult]. *)
Inductive status := Truncated | Invalid | Valid.
Record dres := { point : Z; stat : status; nbytes : nat }.

(** RT/string/TextEncoding.h:22-24: the default-initialised result. *)
Definition dres_default : dres := {| point := -1; stat := Truncated; nbytes := 0 |}.

(** RT/string/TextEncoding.h:31-37 [Enc_Bytes::decodePoint]. *)
Definition bytes_decode (v : list Z) : dres :=
  match v with
  | [] => dres_default
  | b :: _ => {| point := b; stat := Valid; nbytes := 1 |}
  end.

(** RT/string/TextEncoding.h:51-58 [Enc_Bytes::encodePoint]. The bytes written; the capacity
    check (an assertion) is left to the caller: the callers modelled here pass 4 bytes or more. *)
Definition bytes_encode (p : Z) : list Z :=
  if p <? 256 then [u8 p] else [0x95].

(** [(b & 0xc0) == 0x80], the continuation-byte test used throughout
    RT/string/TextEncoding.cpp:28,41,53-54,92-94. *)
Definition is_cont (b : Z) : bool := Z.land b 0xc0 =? 0x80.

(** RT/string/TextEncoding.cpp:75,78,81: [value = (value << 6) | ( *bytes & 0x3f)]. *)
Definition shift_in (value b : Z) : Z := Z.lor (Z.shiftl value 6) (Z.land b 0x3f).

(** RT/string/TextEncoding.cpp:68-72: bad encoding, consume one byte. *)
Definition utf8_bad (first : Z) (s : status) : dres :=
  {| point := first; stat := s; nbytes := 1 |}.

(** RT/string/TextEncoding.cpp:13-85 [UTF8::decodePointSlowPath]. *)
Definition utf8_decode_slow (v : list Z) : dres :=
  match v with
  | [] => dres_default
  | first :: rest =>
      let sel := Z.land (Z.shiftr first 3) 0xf in
      if (8 <=? sel) && (sel <=? 11) then
        match rest with
        | b0 :: _ =>
            if is_cont b0 then
              {| point := shift_in (Z.land first 0x1f) b0; stat := Valid; nbytes := 2 |}
            else utf8_bad first Invalid
        | _ => utf8_bad first Truncated
        end
      else if (12 <=? sel) && (sel <=? 13) then
        match rest with
        | b0 :: b1 :: _ =>
            if is_cont b0 && is_cont b1 then
              {| point := shift_in (shift_in (Z.land first 0xf) b0) b1; stat := Valid; nbytes := 3 |}
            else utf8_bad first Invalid
        | _ => utf8_bad first Truncated
        end
      else if sel =? 14 then
        match rest with
        | b0 :: b1 :: b2 :: _ =>
            if is_cont b0 && is_cont b1 && is_cont b2 then
              {| point := shift_in (shift_in (shift_in (Z.land first 0x7) b0) b1) b2;
                 stat := Valid; nbytes := 4 |}
            else utf8_bad first Invalid
        | _ => utf8_bad first Truncated
        end
      else utf8_bad first Truncated
  end.

(** RT/string/TextEncoding.h:67-75 [UTF8::decodePoint]. *)
Definition utf8_decode (v : list Z) : dres :=
  match v with
  | first :: _ =>
      if first <? 0x80 then {| point := first; stat := Valid; nbytes := 1 |}
      else utf8_decode_slow v
  | [] => utf8_decode_slow v
  end.

(** RT/string/TextEncoding.h:89-98 [UTF8::numBytes]. *)
Definition utf8_numBytes (p : Z) : nat :=
  if p <? 0x80 then 1 else if p <? 0x800 then 2 else if p <? 0x10000 then 3 else 4.

(** RT/string/TextEncoding.h:100-130 [UTF8::encodePoint]: the bytes written, given enough room. *)
Definition utf8_encode (p : Z) : list Z :=
  if p <? 0x80 then [u8 p]
  else if p <? 0x800 then
    [u8 (Z.lor 0xc0 (Z.shiftr p 6)); u8 (Z.lor 0x80 (Z.land p 0x3f))]
  else if p <? 0x10000 then
    [u8 (Z.lor 0xe0 (Z.shiftr p 12)); u8 (Z.lor 0x80 (Z.land (Z.shiftr p 6) 0x3f));
     u8 (Z.lor 0x80 (Z.land p 0x3f))]
  else
    [u8 (Z.lor 0xf0 (Z.shiftr p 18)); u8 (Z.lor 0x80 (Z.land (Z.shiftr p 12) 0x3f));
     u8 (Z.lor 0x80 (Z.land (Z.shiftr p 6) 0x3f)); u8 (Z.lor 0x80 (Z.land p 0x3f))].

(** RT/string/TextEncoding.h:100-130 with its capacity argument: [None] is the failed
    assertion "Passed buffer was too small" (h:128). *)
Definition utf8_encode_into (cap : nat) (p : Z) : option (list Z) :=
  if (utf8_numBytes p <=? cap)%nat then Some (utf8_encode p) else None.

(** RT/string/TextEncoding.cpp:87-107 [UTF8::backNumBytesSlowPath], reading the view from its end:
    the argument is the view reversed, so its head is [tail[-1]]. *)
Definition utf8_back_slow (rv : list Z) : nat :=
  match rv with
  | [] => 0
  | t1 :: r1 =>
      match r1 with
      | t2 :: r2 =>
          if is_cont t1 then
            match r2 with
            | t3 :: r3 =>
                if is_cont t2 then
                  match r3 with
                  | t4 :: _ =>
                      if is_cont t3 then
                        if (Z.land t4 0xf8 =? 0xf0)%Z then 4 else 1
                      else if (Z.land t3 0xf0 =? 0xe0)%Z then 3 else 1
                  | [] => if (Z.land t3 0xf0 =? 0xe0)%Z then 3 else 1
                  end
                else if (Z.land t2 0xe0 =? 0xc0)%Z then 2 else 1
            | [] => if (Z.land t2 0xe0 =? 0xc0)%Z then 2 else 1
            end
          else 1
      | [] => 1
      end
  end%nat.

(** RT/string/TextEncoding.h:79-87 [UTF8::backNumBytes]. *)
Definition utf8_back (v : list Z) : nat :=
  match rev v with
  | last :: _ => if last <? 0x80 then 1%nat else utf8_back_slow (rev v)
  | [] => utf8_back_slow []
  end.

(** RT/string/TextEncoding.h:138-144 [UTF16::getUnit]. *)
Definition get_unit (be : bool) (b0 b1 : Z) : Z :=
  if be then Z.lor (Z.shiftl b0 8) b1 else Z.lor b0 (Z.shiftl b1 8).

(** RT/string/TextEncoding.h:146-154 [UTF16::putUnit]. *)
Definition put_unit (be : bool) (u : Z) : list Z :=
  if be then [u8 (Z.shiftr u 8); u8 u] else [u8 u; u8 (Z.shiftr u 8)].

(** RT/string/TextEncoding.h:156-176 [UTF16::decodePoint]. *)
Definition utf16_decode (be : bool) (v : list Z) : dres :=
  match v with
  | b0 :: b1 :: rest =>
      let first := get_unit be b0 b1 in
      if (0xd800 <=? first) && (first <? 0xdc00) then
        match rest with
        | b2 :: b3 :: _ =>
            let second := get_unit be b2 b3 in
            if (0xdc00 <=? second) && (second <? 0xe000) then
              {| point := 0x10000 + Z.shiftl (first - 0xd800) 10 + (second - 0xdc00);
                 stat := Valid; nbytes := 4 |}
            else {| point := first; stat := Invalid; nbytes := 2 |}
        | _ => {| point := first; stat := Truncated; nbytes := 2 |}
        end
      else if negb ((0xdc00 <=? first) && (first <? 0xe000)) then
        {| point := first; stat := Valid; nbytes := 2 |}
      else {| point := first; stat := Invalid; nbytes := 2 |}
  | _ => dres_default
  end.

(** RT/string/TextEncoding.h:192-197 [UTF16::numBytes]. *)
Definition utf16_numBytes (p : Z) : nat := if p <? 0x10000 then 2 else 4.

(** RT/string/TextEncoding.h:199-215 [UTF16::encodePoint]: the bytes written, given enough room.
    [point -= 0x10000] cannot wrap in that branch. *)
Definition utf16_encode (be : bool) (p : Z) : list Z :=
  if p <? 0x10000 then put_unit be (u16 p)
  else
    let q := p - 0x10000 in
    put_unit be (u16 (0xd800 + Z.land (Z.shiftr q 10) 0x3ff)) ++
    put_unit be (u16 (0xdc00 + Z.land q 0x3ff)).

(** RT/string/TextEncoding.h:178-190 [UTF16::backNumBytes]; the argument is the view reversed. *)
Definition utf16_back (be : bool) (v : list Z) : nat :=
  match rev v with
  | t1 :: t2 :: t3 :: t4 :: _ =>
      let first := get_unit be t4 t3 in
      let second := get_unit be t2 t1 in
      if ((0xd800 <=? first) && (first <? 0xdc00) && (0xdc00 <=? second) && (second <? 0xe000))%Z
      then 4 else 2
  | _ :: _ :: _ => 2
  | _ => 0
  end%nat.

(** RT/string/TextEncoding.h:225-236 and .cpp:112-134: an encoding as a pair of functions. *)
Record encoding := { decode : list Z -> dres; encode : Z -> list Z }.
Definition Enc_Bytes : encoding := {| decode := bytes_decode; encode := bytes_encode |}.
Definition Enc_UTF8 : encoding := {| decode := utf8_decode; encode := utf8_encode |}.
Definition Enc_UTF16 (be : bool) : encoding :=
  {| decode := utf16_decode be; encode := utf16_encode be |}.
