(* Model of calendar conversion: RT/time/DateTime.cpp and DateTime.h
   (RT = /repo/repos/plywood/src/runtime/ply-runtime). [None] is a failed assertion (safeDemote) or
   signed overflow, which is undefined behaviour. *)
From Verif Require Export Base.

(** DateTime.h:11-21 [DateTime]; the time-zone fields, which no modelled function touches, are left out. *)
Record datetime := { year : Z; month : Z; day : Z; weekday : Z; hour : Z; minute : Z; second : Z; micros : Z }.

Definition bind {A B} (o : option A) (f : A -> option B) : option B :=
  match o with Some a => f a | None => None end.
Notation "'do' x <- e ; f" := (bind e (fun x => f)) (at level 200, x name, e at level 100, f at level 200).

(** A value that must fit a type: the result of [safeDemote] or of signed arithmetic. *)
Definition fits (lo hi v : Z) : option Z := if (lo <=? v) && (v <=? hi) then Some v else None.
Definition fits_u8 := fits 0 255.
Definition fits_u32 := fits 0 (2 ^ 32 - 1).
Definition fits_s32 := fits (- 2 ^ 31) (2 ^ 31 - 1).
Definition fits_u64 := fits 0 (2 ^ 64 - 1).

(** DateTime.cpp:48-56 [floorDiv]. *)
Definition floorDiv (dividend divisor : Z) : Z :=
  Z.quot (if dividend <? 0 then dividend + (divisor - 1) else dividend) divisor.

(** DateTime.cpp:62-68: from the day of the era to (year of era, month, day). Unsigned arithmetic wraps. *)
Definition doe_to_ymd (doe : Z) : Z * Z * Z :=
  let yoe := u32 (doe - doe / 1460 + doe / 36524 - doe / 146096) / 365 in
  let doy := u32 (doe - u32 (365 * yoe + yoe / 4 - yoe / 100)) in
  let mp := u32 (5 * doy + 2) / 153 in
  let d := u32 (doy - u32 (153 * mp + 2) / 5 + 1) in
  let m := u32 (mp + (if mp <? 10 then 3 else -9)) in
  (yoe, m, d).

(** DateTime.cpp:59-73 [setDateFromEpochDays]: (year, month, day, weekday). *)
Definition setDateFromEpochDays (days : Z) : option (Z * Z * Z * Z) :=
  do days <- fits_s32 (days + 719468);
  let era := Z.quot (if 0 <=? days then days else days - 146096) 146097 in
  let doe := u32 (days - era * 146097) in
  let '(yoe, m, d) := doe_to_ymd doe in
  do y <- fits_s32 (s32 yoe + era * 400);
  do year <- fits_s32 (y + (if m <=? 2 then 1 else 0));
  do month <- fits_u8 m;
  do day <- fits_u8 d;
  do weekday <- fits_u8 (if -4 <=? days then Z.rem (days + 4) 7 else Z.rem (days + 5) 7 + 6);
  Some (year, month, day, weekday).

(** DateTime.cpp:80-82: from (year of era, month, day) to the day of the era. *)
Definition ymd_to_doe (yoe m d : Z) : Z :=
  let doy := u32 (Z.quot (153 * (if 2 <? m then m - 3 else m + 9) + 2) 5 + d - 1) in
  u32 (yoe * 365 + yoe / 4 - yoe / 100 + doy).

(** DateTime.cpp:76-84 [getEpochDaysFromDate]. *)
Definition getEpochDaysFromDate (year m d : Z) : option Z :=
  do y <- fits_s32 (year - (if m <=? 2 then 1 else 0));
  do y' <- fits_s32 (if 0 <=? y then y else y - 399);
  let era := Z.quot y' 400 in
  let yoe := u32 (y - era * 400) in
  do era_days <- fits_s32 (era * 146097);
  Some (s32 (u32 (era_days + ymd_to_doe yoe m d - 719468))).

Definition usPerDay : Z := 86400000000.

(** DateTime.cpp:86-101 [DateTime::fromEpochMicroseconds]. *)
Definition fromEpochMicroseconds (us : Z) : option datetime :=
  do days <- fits_s32 (floorDiv us usPerDay);
  do usInDay <- fits_u64 (us - days * usPerDay);
  match setDateFromEpochDays days with
  | None => None
  | Some (y, m, d, w) =>
      do secs <- fits_u32 (usInDay / 1000000);
      let minutes := secs / 60 in
      let hours := minutes / 60 in
      do h <- fits_u8 hours;
      do mi <- fits_u8 (u32 (minutes - hours * 60));
      do s <- fits_u8 (u32 (secs - minutes * 60));
      do mic <- fits_u32 (u64 (usInDay - secs * 1000000));
      Some {| year := y; month := m; day := d; weekday := w; hour := h; minute := mi; second := s; micros := mic |}
  end.

(** DateTime.cpp:103-109 [DateTime::toEpochMicroseconds]. *)
Definition toEpochMicroseconds (t : datetime) : option Z :=
  do days <- getEpochDaysFromDate (year t) (month t) (day t);
  let minutes := hour t * 60 + minute t in
  let seconds := minutes * 60 + second t in
  Some (days * usPerDay + seconds * 1000000 + micros t).
