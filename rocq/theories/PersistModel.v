(* Model of saving objects to a file and loading them (ply-reflect, class Asset): the schema, the data and the links between
   objects. RF is repos/plywood/src/reflect/ply-reflect. [None] stands for a failed assertion, a crash or undefined behaviour;
   it also stands for the end of the file inside of what is read, where the code goes on with zeros (not modelled). Objects of
   type AnySavedObject and TypedArray, which carry their type with them, and the functions onPostSerialize are not modelled.
   The machine is little endian. *)
From Verif Require Export Base.
Local Notation length := List.length.

Local Notation "'do' x <- a ; b" := (match a with Some x => b | None => None end) (at level 200, x pattern, a at level 100, b at level 200).

(* ================ numbers ================ *)
(** FormatDescriptor.h:19-29: the kinds of numbers. *)
Inductive num := Kbool | KS8 | KS16 | KS32 | KS64 | KU8 | KU16 | KU32 | KU64 | Kfloat | Kdouble.
(** FormatDescriptor.h:15-29 [FormatKey], which is also the format ID of a built-in format. *)
Definition key (k : num) : Z :=
  match k with
  | Kbool => 2 | KS8 => 3 | KS16 => 4 | KS32 => 5 | KS64 => 6 | KU8 => 7 | KU16 => 8 | KU32 => 9 | KU64 => 10 | Kfloat => 11 | Kdouble => 12
  end.
Definition numOf (z : Z) : option num := find (fun k => key k =? z) [Kbool; KS8; KS16; KS32; KS64; KU8; KU16; KU32; KU64; Kfloat; Kdouble].
(** sizeof. *)
Definition size (k : num) : nat :=
  match k with Kbool | KS8 | KU8 => 1 | KS16 | KU16 => 2 | KS32 | KU32 | Kfloat => 4 | KS64 | KU64 | Kdouble => 8 end.
Definition isSigned (k : num) : bool := match k with KS8 | KS16 | KS32 | KS64 => true | _ => false end.

(** NativeEndianWriter::write and NativeEndianReader::read (RT/io/OutStream.h, InStream.h:476-489): the bytes of an integer. *)
Fixpoint le (n : nat) (z : Z) : list Z := match n with O => [] | S n => z mod 256 :: le n (z / 256) end.
Fixpoint unle (l : list Z) : Z := match l with [] => 0 | c :: l => c + 256 * unle l end.
(** A number in memory: an integer, or the bits of a float or double. A bool that is neither 0 nor 1 is undefined. *)
Definition decode (k : num) (l : list Z) : option Z :=
  let u := unle l in
  match k with
  | Kbool => if (u =? 0) || (u =? 1) then Some u else None
  | _ => Some (if isSigned k then to_signed (8 * Z.of_nat (size k)) u else u)
  end.

(** IEEE 754 numbers with [mb] bits of mantissa and [eb] bits of exponent. The exponent of the last place of the smallest
    numbers. *)
Definition emin (mb eb : Z) : Z := 2 - 2 ^ (eb - 1) - mb.
Inductive fval := Fin (s : bool) (m e : Z) | Inf (s : bool) | Nan (s : bool) (payload : Z).
Definition fdecode (mb eb b : Z) : fval :=
  let s := Z.odd (b / 2 ^ (mb + eb)) in
  let E := b / 2 ^ mb mod 2 ^ eb in
  let M := b mod 2 ^ mb in
  if E =? 0 then Fin s M (emin mb eb)
  else if E =? 2 ^ eb - 1 then if M =? 0 then Inf s else Nan s M
  else Fin s (2 ^ mb + M) (E - 1 + emin mb eb).
(** m * 2^d to an integer, to the nearest, ties to even. *)
Definition nearest (m d : Z) : Z :=
  if 0 <=? d then m * 2 ^ d else
  let a := m / 2 ^ (- d) in
  let b := m mod 2 ^ (- d) in
  let half := 2 ^ (- d - 1) in
  if (half <? b) || ((b =? half) && Z.odd a) then a + 1 else a.
(** The bits of m * 2^e, m >= 0, to the nearest. *)
Definition fencode (mb eb : Z) (s : bool) (m e : Z) : Z :=
  let sign := if s then 2 ^ (mb + eb) else 0 in
  if m =? 0 then sign else
  let q := Z.max (Z.log2 m + e - mb) (emin mb eb) in
  sign + Z.min ((q - emin mb eb) * 2 ^ mb + nearest m (e - q)) ((2 ^ eb - 1) * 2 ^ mb).
(** (double) of a float, and (float) of a double: a NaN becomes quiet and keeps the upper bits of its payload. *)
Definition toDouble (b : Z) : Z :=
  match fdecode 23 8 b with
  | Fin s m e => fencode 52 11 s m e
  | Inf s => (if s then 2 ^ 63 else 0) + 2047 * 2 ^ 52
  | Nan s p => (if s then 2 ^ 63 else 0) + 2047 * 2 ^ 52 + 2 ^ 51 + (p mod 2 ^ 22) * 2 ^ 29
  end.
Definition toFloat (b : Z) : Z :=
  match fdecode 52 11 b with
  | Fin s m e => fencode 23 8 s m e
  | Inf s => (if s then 2 ^ 31 else 0) + 255 * 2 ^ 23
  | Nan s p => (if s then 2 ^ 31 else 0) + 255 * 2 ^ 23 + 2 ^ 22 + p mod 2 ^ 51 / 2 ^ 29
  end.

(** RT/container/Numeric.h:15-67. *)
Inductive numeric := RepInt (z : Z) | RepDouble (b : Z).
Definition toNumeric (k : num) (z : Z) : numeric :=
  match k with Kfloat => RepDouble (toDouble z) | Kdouble => RepDouble z | _ => RepInt z end.
(** The range of an integer type; a bool is cast to u32 first (TypeKey.cpp:63-67). *)
Definition lo (k : num) : Z := if isSigned k then - 2 ^ (8 * Z.of_nat (size k) - 1) else 0.
Definition hi (k : num) : Z :=
  match k with Kbool => 2 ^ 32 | _ => if isSigned k then 2 ^ (8 * Z.of_nat (size k) - 1) else 2 ^ (8 * Z.of_nat (size k)) end.
Definition castInt (k : num) (z : Z) : Z :=
  match k with
  | Kbool => if u32 z =? 0 then 0 else 1
  | _ => if isSigned k then to_signed (8 * Z.of_nat (size k)) z else z mod 2 ^ (8 * Z.of_nat (size k))
  end.
(** Numeric.h:69-88 [cast]. A double outside of the range of an integer type is undefined. *)
Definition cast (k : num) (n : numeric) : option Z :=
  match n, k with
  | RepInt z, Kfloat => Some (fencode 23 8 (z <? 0) (Z.abs z) 0)
  | RepInt z, Kdouble => Some (fencode 52 11 (z <? 0) (Z.abs z) 0)
  | RepInt z, _ => Some (castInt k z)
  | RepDouble b, Kfloat => Some (toFloat b)
  | RepDouble b, Kdouble => Some b
  | RepDouble b, _ =>
    match fdecode 52 11 b with
    | Fin s m e =>
      let a := if 0 <=? e then m * 2 ^ e else m / 2 ^ (- e) in
      let z := if s then - a else a in
      if (lo k <=? z) && (z <? hi k) then Some (castInt k z) else None
    | _ => None
    end
  end.

(* ================ types and values ================ *)
(** A TypeDescriptor pointer: one of the built-in types (PersistWriteSchema.cpp:21-36), or the number of another one. *)
Inductive tptr := PNum (k : num) | PString | PUser (i : nat).
Definition tptr_eqb (a b : tptr) : bool :=
  match a, b with
  | PNum k, PNum l => key k =? key l
  | PString, PString => true
  | PUser i, PUser j => (i =? j)%nat
  | _, _ => false
  end.
(** RF/builtin: the other TypeDescriptors, with the names and types of template parameters, members and states, and the names
    and values of the identifiers of an enum. *)
Inductive tdesc :=
| TFixed (n : Z) (item : tptr)
| TArray (item : tptr)
| TOwned (target : tptr)
| TRaw (target : tptr)
| TStruct (name : list Z) (params members : list (list Z * tptr))
| TEnum (name : list Z) (bytes : Z) (ids : list (list Z * Z))
| TEnumArray (item : tptr) (enum : nat)
| TSwitch (name : list Z) (states : list (list Z * nat)).

(** An object in memory. An object behind a pointer has an address; 0 is the null pointer. [VSeq]: the items of a fixed array
    or an enum-indexed array, or the members of a struct. [VLink]: a pointer that was read but is not resolved yet
    (PersistRead.h:46-49), with the type it shall point to. *)
Inductive val :=
| VNum (z : Z)
| VStr (s : list Z)
| VSeq (l : list val)
| VArr (l : list val)
| VOwn (a : Z) (v : val)
| VNull
| VPtr (a : Z)
| VLink (i : Z) (t : tptr)
| VSwitch (id : nat) (v : val).

(* ================ saving ================ *)
(** RT/container/Boxed.h:22-25. *)
Definition boxed (s : list Z) : list Z := le 4 (zlen s) ++ s.

(** PersistWrite.h:18-25 [WriteFormatContext]: the types that have been given format IDs, the k-th 1000 + k, and the output. *)
Record wfc := mkf { types : list nat; schema : list Z }.
Definition emitS (l : list Z) (c : wfc) : wfc := mkf (types c) (schema c ++ l).
Fixpoint indexOf (i : nat) (l : list nat) : option nat :=
  match l with [] => None | j :: l => if (j =? i)%nat then Some O else do k <- indexOf i l; Some (S k) end.
Definition indirect (id : Z) : list Z := 1 :: le 4 id.
(** PersistWriteSchema.cpp:47-58 [writeChildFormatDesc]; [add] is addFormatDesc. *)
Definition childFormat (add : nat -> wfc -> option wfc) (t : tptr) (c : wfc) : option wfc :=
  match t with
  | PNum k => Some (emitS (indirect (key k)) c)
  | PString => Some (emitS (indirect 13) c)
  | PUser i =>
    match indexOf i (types c) with
    | Some j => Some (emitS (indirect (u32 (1000 + Z.of_nat j))) c)
    | None => add i c
    end
  end.
Fixpoint each {A S} (f : A -> S -> option S) (l : list A) (s : S) : option S :=
  match l with [] => Some s | x :: l => do s <- f x s; each f l s end.
(** A name, then a format (PersistWriteSchema.cpp:133-141 and 178-181). *)
Definition named (add : nat -> wfc -> option wfc) (m : list Z * tptr) (c : wfc) : option wfc :=
  childFormat add (snd m) (emitS (boxed (fst m)) c).
(** PersistWriteSchema.cpp:36-45 [addFormatDesc], with the writeFormat functions of TypeKey.cpp and 97-186. Every call in it adds
    another type, so their number is enough fuel. *)
Fixpoint addFormat (fuel : nat) (env : list tdesc) (i : nat) (c : wfc) : option wfc :=
  match fuel with
  | O => None
  | S fuel =>
    let add := addFormat fuel env in
    let c := mkf (types c ++ [i]) (schema c) in
    do d <- nth_error env i;
    match d with
    | TFixed n t => childFormat add t (emitS (16 :: le 4 n) c)
    | TArray t => childFormat add t (emitS [17] c)
    | TOwned t => childFormat add t (emitS [18] c)
    | TRaw t => childFormat add t (emitS [19] c)
    | TStruct name ps ms =>
      if (zlen ps <=? 65535) && (zlen ms <=? 65535) then
        do c <- each (named add) ps (emitS (20 :: boxed name ++ le 2 (zlen ps) ++ le 2 (zlen ms)) c);
        each (named add) ms c
      else None
    | TEnum name n ids => Some (emitS (21 :: boxed name ++ le 1 n ++ le 4 (zlen ids) ++ flat_map (fun x => boxed (fst x)) ids) c)
    | TEnumArray t e => do c <- childFormat add t (emitS [22] c); childFormat add (PUser e) c
    | TSwitch name ss =>
      if zlen ss <=? 65535 then
        each (fun s => named add (fst s, PUser (snd s))) ss (emitS (23 :: boxed name ++ le 2 (zlen ss)) c)
      else None
    end
  end.

(** PersistWrite.h:55-94: the data, the pointers to resolve and the owned objects; both with address, type and offset. *)
Record wst := mkw { data : list Z; weak : list (Z * tptr * Z); owned : list (Z * tptr * Z) }.
Definition emit (l : list Z) (s : wst) : wst := mkw (data s ++ l) (weak s) (owned s).
(** safeDemote<u32>(getSeekPos()). *)
Definition offset (s : wst) : option Z := if zlen (data s) <? 2 ^ 32 then Some (zlen (data s)) else None.
Fixpoint run {S} (fs : list (S -> option S)) (s : S) : option S :=
  match fs with [] => Some s | f :: fs => do s <- f s; run fs s end.
(** Each member with its type; both lists have the same length. *)
Fixpoint both {A B} (fs : list (A -> B)) (l : list A) : option (list B) :=
  match fs, l with
  | [], [] => Some []
  | f :: fs, x :: l => do r <- both fs l; Some (f x :: r)
  | _, _ => None
  end.
(** TypeKey.cpp:624-632: the first identifier with this value. *)
Fixpoint valueIndex (ids : list (list Z * Z)) (z : Z) : option Z :=
  match ids with [] => None | (_, y) :: ids => if y =? z then Some 0 else do i <- valueIndex ids z; Some (i + 1) end.
Definition enumIds (env : list tdesc) (e : nat) : option (list (list Z * Z)) :=
  match nth_error env e with Some (TEnum _ _ ids) => Some ids | _ => None end.
(** Whether a size is one of 1, 2 and 4. *)
Definition enumSize (n : Z) : bool := (n =? 1) || (n =? 2) || (n =? 4).
(** The write functions of TypeKey.cpp. The hash map from addresses to saved objects is an association list. *)
Fixpoint writeVal (env : list tdesc) (v : val) (t : tptr) (s : wst) : option wst :=
  match t, v with
  | PNum k, VNum z => Some (emit (le (size k) z) s)
  | PString, VStr x => if zlen x <? 2 ^ 32 then Some (emit (boxed x) s) else None
  | PUser i, _ =>
    do d <- nth_error env i;
    match d, v with
    | TFixed n t, VSeq l => if zlen l =? n then run (map (fun v => writeVal env v t) l) s else None
    | TArray t, VArr l => if zlen l <? 2 ^ 32 then run (map (fun v => writeVal env v t) l) (emit (le 4 (zlen l)) s) else None
    | TOwned t, VOwn a v =>
      do o <- offset s;
      if existsb (fun x => fst (fst x) =? a) (owned s) then None
      else writeVal env v t (mkw (data s) (weak s) (owned s ++ [(a, t, o)]))
    | TRaw t, VPtr a => do o <- offset s; Some (mkw (data s ++ le 4 0) (weak s ++ [(a, t, o)]) (owned s))
    | TStruct _ _ ms, VSeq l => do fs <- both (map (writeVal env) l) (map snd ms); run fs s
    | TEnum _ n ids, VNum z =>
      do x <- valueIndex ids z;
      if enumSize n && (x <? 2 ^ (8 * n)) then Some (emit (le (Z.to_nat n) x) s) else None
    | TEnumArray t e, VSeq l =>
      do ids <- enumIds env e;
      if (length l =? length ids)%nat then run (map (fun v => writeVal env v t) l) s else None
    | TSwitch _ ss, VSwitch id v => do st <- nth_error ss id; writeVal env v (PUser (snd st)) (emit (le 2 (Z.of_nat id)) s)
    | _, _ => None
    end
  | _, _ => None
  end.

(** PersistWriteObject.cpp:21-40: the saved objects with their link indices, how many there are, and the data. *)
Fixpoint findOwned (l : list (Z * tptr * Z * option Z)) (a : Z) : option (tptr * option Z) :=
  match l with [] => None | (b, t, _, x) :: l => if b =? a then Some (t, x) else findOwned l a end.
Fixpoint setLink (l : list (Z * tptr * Z * option Z)) (a i : Z) : list (Z * tptr * Z * option Z) :=
  match l with [] => [] | (b, t, o, x) :: l => if b =? a then (b, t, o, Some i) :: l else (b, t, o, x) :: setLink l a i end.
Definition patch (l : list Z) (o i : Z) : list Z := firstn (Z.to_nat o) l ++ le 4 i ++ skipn (Z.to_nat o + 4) l.
Definition resolve1 (w : Z * tptr * Z) (s : list (Z * tptr * Z * option Z) * Z * list Z) : option (list (Z * tptr * Z * option Z) * Z * list Z) :=
  let '(a, t, o) := w in
  let '(os, n, l) := s in
  if o + 4 <=? zlen l then
    do (u, x) <- findOwned os a;
    if tptr_eqb u t then
      match x with
      | Some i => Some (os, n, patch l o i)
      | None => Some (setLink os a n, n + 1, patch l o n)
      end
    else None
  else None.
(** PersistWriteObject.cpp:43-53: the offsets; the link indices must be in order. *)
Fixpoint linkTable (os : list (Z * tptr * Z * option Z)) (n : Z) : option (list Z) :=
  match os with
  | [] => Some []
  | (_, _, o, None) :: os => linkTable os n
  | (_, _, o, Some i) :: os => if i =? n then do r <- linkTable os (n + 1); Some (le 4 o ++ r) else None
  end.

(** Asset.cpp:15-28 [writeAsset], with PersistWriteObject.cpp:12-19 and 21-54. *)
Definition writeAsset (env : list tdesc) (t : tptr) (v : val) : option (list Z) :=
  do (id, c) <-
    match t with
    | PNum k => Some (key k, mkf [] [])
    | PString => Some (13, mkf [] [])
    | PUser i => do c <- addFormat (S (length env)) env i (mkf [] []); Some (1000, c)
    end;
  do s <- writeVal env v t (mkw (le 4 id) [] []);
  do (os, n, l) <- each resolve1 (weak s) (map (fun x => (x, None)) (owned s), 0, data s);
  do table <- linkTable os 0;
  Some (schema c ++ [0] ++ le 4 n ++ table ++ l).

(* ================ loading ================ *)
(** FormatDescriptor.h:48-176: a format. Formats are not changed once they are read, so that a pointer to a format is modelled by
    the format; [FNull] is the null pointer. [FOther]: TypedArray and Typed. *)
Inductive fmt :=
| FNull
| FNum (k : num)
| FString
| FOther
| FFixed (n : Z) (f : fmt)
| FArray (f : fmt)
| FOwned (f : fmt)
| FRaw (f : fmt)
| FStruct (name : list Z) (params members : list (list Z * fmt))
| FEnum (name : list Z) (bytes : Z) (ids : list (list Z))
| FEnumArray (f : fmt) (ids : list (list Z))
| FSwitch (name : list Z) (states : list (list Z * fmt)).

(** The input: the position in the file and what follows. *)
Definition input := (Z * list Z)%type.
Definition take (n : nat) (r : input) : option (list Z * input) :=
  if (n <=? length (snd r))%nat then Some (firstn n (snd r), (fst r + Z.of_nat n, skipn n (snd r))) else None.
Definition readU (n : nat) (r : input) : option (Z * input) := do (l, r) <- take n r; Some (unle l, r).
(** RT/container/Boxed.cpp:10-17. *)
Definition readBoxed (r : input) : option (list Z * input) := do (n, r) <- readU 4 r; take (Z.to_nat n) r.

(** PersistReadSchema.cpp:18-33 [BuiltInFormats]. *)
Definition builtin (id : Z) : option fmt :=
  if (0 <=? id) && (id <? 16) then
    Some (if id <? 2 then FNull else if id =? 13 then FString else if 13 <? id then FOther else match numOf id with Some k => FNum k | None => FNull end)
  else None.
(** PersistRead.h:16-20 [Schema]: a format that is being read is a null pointer. *)
Definition formats := list fmt.
Definition setAt (l : formats) (i : nat) (f : fmt) : formats := firstn i l ++ f :: skipn (S i) l.
(** PersistReadSchema.cpp:153-166 [getFormatDesc]. *)
Definition getFormat (table : formats) (id : Z) : option fmt :=
  if id <? 1000 then builtin id else nth_error table (Z.to_nat (id - 1000)).
Fixpoint times {A S} (n : nat) (f : S -> option (A * S)) (s : S) : option (list A * S) :=
  match n with O => Some ([], s) | S n => do (x, s) <- f s; do (l, s) <- times n f s; Some (x :: l, s) end.
Definition nameThen {A S} (f : S * input -> option (A * (S * input))) (s : S * input) : option ((list Z * A) * (S * input)) :=
  do (n, r) <- readBoxed (snd s); do (x, s) <- f (fst s, r); Some ((n, x), s).
Definition nonNull (f : fmt) : bool := match f with FNull => false | _ => true end.
(** PersistReadSchema.cpp:45-134 [readFormatDescriptor]. Every call reads a byte or more. *)
Fixpoint readFormat (fuel : nat) (top : bool) (s : formats * input) : option (fmt * (formats * input)) :=
  match fuel with
  | O => None
  | S fuel =>
    let child := readFormat fuel false in
    let (table, r) := s in
    do (k, r) <- readU 1 r;
    if k =? 0 then if top then Some (FNull, (table, r)) else None
    else if k =? 1 then
      do (id, r) <- readU 4 r;
      do f <- getFormat table id;
      if (id <? 1000) && negb (nonNull f) then None else Some (f, (table, r))
    else if k <? 16 then if top then None else do f <- builtin k; Some (f, (table, r))
    else
      let i := length table in
      let s := (table ++ [FNull], r) in
      do (f, s) <-
        (if k =? 16 then do (n, r) <- readU 4 r; do (f, s) <- child (fst s, r); Some (FFixed n f, s)
         else if k =? 17 then do (f, s) <- child s; Some (FArray f, s)
         else if k =? 18 then do (f, s) <- child s; Some (FOwned f, s)
         else if k =? 19 then do (f, s) <- child s; Some (FRaw f, s)
         else if k =? 20 then
           do (name, r) <- readBoxed r;
           do (np, r) <- readU 2 r;
           do (nm, r) <- readU 2 r;
           do (ps, s) <- times (Z.to_nat np) (nameThen child) (fst s, r);
           do (ms, s) <- times (Z.to_nat nm) (nameThen child) s;
           Some (FStruct name ps ms, s)
         else if k =? 21 then
           do (name, r) <- readBoxed r;
           do (n, r) <- readU 1 r;
           do (m, r) <- readU 4 r;
           do (ids, r) <- times (Z.to_nat m) readBoxed r;
           Some (FEnum name n ids, (fst s, r))
         else if k =? 22 then
           do (f, s) <- child s;
           do (e, s) <- child s;
           match e with FEnum _ _ ids => Some (FEnumArray f ids, s) | _ => None end
         else if k =? 23 then
           do (name, r) <- readBoxed r;
           do (n, r) <- readU 2 r;
           do (ss, s) <- times (Z.to_nat n) (nameThen (fun s => do (f, s) <- child s; match f with FStruct _ _ _ => Some (f, s) | _ => None end)) (fst s, r);
           Some (FSwitch name ss, s)
         else None);
      Some (f, (setAt (fst s) i f, snd s))
  end.
(** PersistReadSchema.cpp:136-142 [readSchema]. *)
Fixpoint readSchema (fuel : nat) (s : formats * input) : option (formats * input) :=
  match fuel with
  | O => None
  | S fuel =>
    do (f, s) <- readFormat (S (length (snd (snd s)))) true s;
    match f with FNull => Some s | _ => readSchema fuel s end
  end.

(** PersistRead.h:31-64 [LoadPtrResolver]: the offsets in the link table from linkTableIndex on, the entries before it (null if
    the object was skipped), and the address that the next object will get. *)
Record ost := mko { inp : input; todo : list Z; done : list (option (Z * tptr)); fresh : Z }.
Definition setInp (r : input) (s : ost) : ost := mko r (todo s) (done s) (fresh s).
Definition rd {A} (f : input -> option (A * input)) (s : ost) : option (A * ost) := do (x, r) <- f (inp s); Some (x, setInp r s).
Fixpoint rep (n : nat) (f : ost -> option ost) (s : ost) : option ost :=
  match n with O => Some s | S n => do s <- f s; rep n f s end.
Definition skipMembers (sk : fmt -> ost -> option ost) : list (list Z * fmt) -> ost -> option ost :=
  fix all ms s := match ms with [] => Some s | m :: ms => do s <- sk (snd m) s; all ms s end.
Definition withState {A} (g : fmt -> option A) : nat -> list (list Z * fmt) -> option A :=
  fix nth i ss {struct ss} := match ss, i with [], _ => None | st :: _, O => g (snd st) | _ :: ss, S i => nth i ss end.
(** PersistReadObject.cpp:17-128 [skip]. *)
Fixpoint skip (f : fmt) (s : ost) : option ost :=
  match f with
  | FNum k => do (l, s) <- rd (take (size k)) s; do _ <- decode k l; Some s
  | FString => do (_, s) <- rd readBoxed s; Some s
  | FFixed n f => rep (Z.to_nat n) (skip f) s
  | FArray f => do (n, s) <- rd (readU 4) s; rep (Z.to_nat n) (skip f) s
  | FOwned f => skip f s
  | FStruct _ _ ms => skipMembers skip ms s
  | FEnum _ n _ => if n <=? 4 then do (_, s) <- rd (take (Z.to_nat n)) s; Some s else None
  | FEnumArray f ids => rep (length ids) (skip f) s
  | FSwitch _ ss =>
    do (id, s) <- rd (readU 2) s;
    withState (fun f => skip f s) (Z.to_nat id) ss
  | FNull | FOther | FRaw _ => None
  end.

(** PersistRead.h, TypeKey.cpp:421-440: what the link table says about an object that is loaded from offset [o]. *)
Fixpoint link (todo : list Z) (done : list (option (Z * tptr))) (o : Z) (p : Z * tptr) : list Z * list (option (Z * tptr)) :=
  match todo with
  | [] => (todo, done)
  | x :: rest =>
    if o <? x then (todo, done)
    else if x =? o then (rest, done ++ [Some p])
    else link rest (done ++ [None]) o p
  end.
Fixpoint list_eqb (a b : list Z) : bool :=
  match a, b with [], [] => true | x :: a, y :: b => (x =? y) && list_eqb a b | _, _ => false end.
(** The first entry with this name, and its index. *)
Fixpoint findName {A} (l : list (list Z * A)) (name : list Z) : option (nat * A) :=
  match l with
  | [] => None
  | (n, x) :: l => if list_eqb name n then Some (O, x) else do (i, y) <- findName l name; Some (S i, y)
  end.
Fixpoint updAt {A} (l : list A) (i : nat) (x : A) : list A :=
  match l, i with [], _ => [] | _ :: l, O => x :: l | y :: l, S i => y :: updAt l i x end.

(** The items of a fixed array, one after the other. *)
Definition readSeq (rv : val -> ost -> option (val * ost)) : list val -> ost -> option (list val * ost) :=
  fix all l s := match l with [] => Some ([], s) | o :: l => do (v, s) <- rv o s; do (l, s) <- all l s; Some (v :: l, s) end.
(** TypeKey.cpp:551-570: the members in the order of the file, by name. *)
Definition readMembers (rv : fmt -> tptr -> val -> ost -> option (val * ost)) (ms : list (list Z * tptr)) :
  list (list Z * fmt) -> list val -> ost -> option (list val * ost) :=
  fix members fms l s :=
    match fms with
    | [] => Some (l, s)
    | m :: fms =>
      match findName ms (fst m) with
      | None => do s <- skip (snd m) s; members fms l s
      | Some (j, t) => do o <- nth_error l j; do (v, s) <- rv (snd m) t o s; members fms (updAt l j v) s
      end
    end.
(** TypeKey.cpp:815-836: the items in the order of the file; the value of an identifier is the index of its item. *)
Definition readItems (rv : val -> ost -> option (val * ost)) (sk : ost -> option ost) (ids : list (list Z * Z)) :
  list (list Z) -> list val -> ost -> option (list val * ost) :=
  fix items names l s :=
    match names with
    | [] => Some (l, s)
    | name :: names =>
      match findName ids name with
      | None => do s <- sk s; items names l s
      | Some (_, z) =>
        if z <? zlen ids then do o <- nth_error l (Z.to_nat z); do (v, s) <- rv o s; items names (updAt l (Z.to_nat z) v) s else None
      end
    end.

Section Load.
(** The types of the program that loads, the objects it constructs by default, and the offset of the object data. *)
Context (env : list tdesc) (dflt : tptr -> val) (base : Z).
(** AnyObject::create: only numbers, strings, structs and switches (RF/builtin, NativeBindings). *)
Definition creatable (t : tptr) : bool :=
  match t with PUser i => match nth_error env i with Some (TStruct _ _ _) | Some (TSwitch _ _) => true | _ => false end | _ => true end.
(** The read functions of TypeKey.cpp, into an object that contains [old]. A format that is a null pointer crashes where its
    formatKey is read. An enum format is assumed without looking (TypeKey.cpp:659); a pointer is read whatever the format
    is (741-755); the old state of a switch is constructed again if it changes. *)
Fixpoint readVal (f : fmt) (t : tptr) (old : val) (s : ost) : option (val * ost) :=
  let skipped := do s <- skip f s; Some (old, s) in
  match t with
  | PNum k =>
    match f with
    | FNum l => do (x, s) <- rd (take (size l)) s; do z <- decode l x; do y <- cast k (toNumeric l z); Some (VNum y, s)
    | _ => skipped
    end
  | PString => match f with FString => do (x, s) <- rd readBoxed s; Some (VStr x, s) | _ => skipped end
  | PUser i =>
    do d <- nth_error env i;
    match d with
    | TFixed n t =>
      match f with
      | FFixed m f =>
        if m =? n then
          match old with
          | VSeq l => if zlen l =? n then do (l, s) <- readSeq (readVal f t) l s; Some (VSeq l, s) else None
          | _ => None
          end
        else skipped
      | _ => skipped
      end
    | TArray t =>
      match f with
      | FArray f =>
        do (n, s) <- rd (readU 4) s;
        if n <? 10000000 then do (l, s) <- times (Z.to_nat n) (readVal f t (dflt t)) s; Some (VArr l, s) else None
      | _ => skipped
      end
    | TOwned t =>
      match f with
      | FOwned f =>
        if creatable t && (fst (inp s) <? 2 ^ 32) then
          let '(td, dn) := link (todo s) (done s) (fst (inp s) - base) (fresh s, t) in
          do (v, s') <- readVal f t (dflt t) (mko (inp s) td dn (fresh s + 1));
          match old with VNull => Some (VOwn (fresh s) v, s') | _ => None end
        else None
      | _ => skipped
      end
    | TRaw t => do (i, s) <- rd (readU 4) s; if i <? zlen (todo s) + zlen (done s) then Some (VLink i t, s) else None
    | TStruct _ _ ms =>
      match f, old with
      | FStruct _ _ fms, VSeq l =>
        do (l, s) <- readMembers readVal ms fms l s;
        Some (VSeq l, s)
      | FStruct _ _ _, _ => None
      | _, _ => skipped
      end
    | TEnum _ n ids =>
      match f with
      | FEnum _ m names =>
        if enumSize m && enumSize n then
          do (x, s) <- rd (readU (Z.to_nat m)) s;
          match nth_error names (Z.to_nat x) with
          | None => Some (old, s)
          | Some name =>
            match findName ids name with
            | None => Some (old, s)
            | Some (_, z) => if z <? 2 ^ (8 * n) then Some (VNum z, s) else None
            end
          end
        else None
      | _ => None
      end
    | TEnumArray t e =>
      match f, old with
      | FEnumArray f names, VSeq l =>
        do ids <- enumIds env e;
        do (l, s) <- readItems (readVal f t) (skip f) ids names l s;
        Some (VSeq l, s)
      | FEnumArray _ _, _ => None
      | _, _ => skipped
      end
    | TSwitch _ ss =>
      match f, old with
      | FSwitch _ fss, VSwitch oldID o =>
        do (id, s) <- rd (readU 2) s;
        do st <- nth_error fss (Z.to_nat id);
        match findName ss (fst st) with
        | None =>
          do s <- withState (fun f => skip f s) (Z.to_nat id) fss;
          Some (old, s)
        | Some (newID, t) =>
          let o := if (oldID =? newID)%nat then o else dflt (PUser t) in
          do (v, s) <- withState (fun f => readVal f (PUser t) o s) newID fss;
          Some (VSwitch newID v, s)
        end
      | FSwitch _ _, _ => None
      | _, _ => skipped
      end
    end
  end.
End Load.

Definition mapOpt {A B} (f : A -> option B) : list A -> option (list B) :=
  fix all l := match l with [] => Some [] | x :: l => do y <- f x; do l <- all l; Some (y :: l) end.
(** PersistReadObject.cpp:158-180 [resolveLinks]: pointers in an object; the rest of the table is null. *)
Fixpoint resolve (done : list (option (Z * tptr))) (v : val) : option val :=
  match v with
  | VSeq l => do l <- mapOpt (resolve done) l; Some (VSeq l)
  | VArr l => do l <- mapOpt (resolve done) l; Some (VArr l)
  | VOwn a v => do v <- resolve done v; Some (VOwn a v)
  | VSwitch id v => do v <- resolve done v; Some (VSwitch id v)
  | VLink i t =>
    do e <- nth_error done (Z.to_nat i);
    do (a, u) <- e;
    if tptr_eqb u t then Some (VPtr a) else None
  | v => Some v
  end.

(** Asset.cpp:34-43 [readAsset] for an expected type (45-51), with PersistReadObject.cpp:130-156. New objects get the addresses
    from 1 on. *)
Definition readAsset (env : list tdesc) (dflt : tptr -> val) (t : tptr) (file : list Z) : option val :=
  do (table, r) <- readSchema (S (length file)) ([], (0, file));
  do (n, r) <- readU 4 r;
  do (offs, r) <- times (Z.to_nat n) (readU 4) r;
  let base := fst r in
  if base <? 2 ^ 32 then
    do (id, r) <- readU 4 r;
    do f <- getFormat table id;
    if creatable env t then
      do (v, s) <- readVal env dflt base f t (dflt t) (mko r offs [] 1);
      resolve (done s) v
    else None
  else None.
