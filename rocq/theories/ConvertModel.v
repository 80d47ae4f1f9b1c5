(* Model of the conversion of structs by recipes.
   repos/plywood/src/reflect/ply-reflect/TypeConverter.cpp:58-267.
   Simplified: a recipe is the list of the commands written to the stream, which all lie in one block (2048
   bytes by default), so that there is no next block; a command is read back as it was written. Offsets do
   not wrap round at 2^32. Memory is a function from addresses to bytes. *)
From Verif Require Export Base.
Local Open Scope list_scope.
Local Open Scope Z_scope.

(** The type descriptors that the converter knows: floats, fixed arrays of [n] items every [stride] bytes, and
    arrays on the heap with items of [size] bytes. Everything else is [TOther]. *)
Inductive ty := TFloat | TFixed (item : ty) (n stride : Z) | TArr (item : ty) (size : Z) | TOther.
Definition isFloat (t : ty) : bool := match t with TFloat => true | _ => false end.
(** Members of structs: name, offset, type. *)
Record member := mkMember { mname : list Z; offset : Z; mtype : ty }.

(** TypeConverter.cpp:67-100. *)
Inductive cmd :=
| SetRoot (sourceIndex : Z)
| Iter (dstOffset srcOffset dstStride srcStride dstSize : Z)
| Copy32 (dstOffset srcOffset : Z)
| Copy32Range (dstOffset srcOffset count : Z)
| EndScope.

(** ply-platform/Util.h:78-82 [safeDemote<u16>]: what does not fit is an assertion. *)
Definition demotes (l : list Z) : bool := forallb (fun x => x <=? 65535) l.

(** TypeConverter.cpp:103-154 [makeConversionRecipe]. [None] is an assertion or a crash. *)
Fixpoint makeRecipe (t u : ty) (d s : Z) : option (list cmd) :=
  match t with
  | TFloat =>                                                                                     (* :105-109 *)
    if isFloat u && demotes [d; s] then Some [Copy32 d s] else None
  | TFixed ti n st =>
    match u with
    | TFixed ui m su =>                                                                           (* :113-135 *)
      if isFloat ti && isFloat ui && (st =? 4) && (su =? 4) then
        if demotes [d; s; Z.min n m] then Some [Copy32Range d s (Z.min n m)] else None
      else
        (fix loop (k : nat) (d s : Z) : option (list cmd) :=
           match k with
           | O => Some []
           | S k => match makeRecipe ti ui d s with
                    | None => None
                    | Some l => match loop k (d + st) (s + su) with None => None | Some l' => Some (l ++ l') end
                    end
           end) (Z.to_nat (Z.min n m)) d s
    | TArr ui size =>                                                                             (* :136-147 *)
      if demotes [d; s; st; size; n] then
        match makeRecipe ti ui 0 0 with
        | None => None
        | Some l => Some (Iter d s st size n :: l ++ [EndScope])
        end
      else None
    | _ => None                                                                                   (* :148-150 *)
    end
  | _ => None                                                                                     (* :151-153 *)
  end.

Definition sameName (a b : list Z) : bool := if list_eq_dec Z.eq_dec a b then true else false.
(** TypeConverter.cpp:161-168: the member with that name in one source. *)
Fixpoint findMember (x : list Z) (l : list member) : option member :=
  match l with
  | [] => None
  | m :: r => if sameName x (mname m) then Some m else findMember x r
  end.
(** TypeConverter.cpp:159-170: the sources in their order. *)
Fixpoint findSource (x : list Z) (srcs : list (list member)) (s : Z) : option (Z * member) :=
  match srcs with
  | [] => None
  | st :: r => match findMember x st with Some m => Some (s, m) | None => findSource x r (s + 1) end
  end.
(** TypeConverter.cpp:156-175 [createConversionRecipe]. *)
Fixpoint createRecipe (dst : list member) (srcs : list (list member)) : option (list cmd) :=
  match dst with
  | [] => Some [EndScope]                                                                         (* :174 *)
  | dm :: r =>
    match findSource (mname dm) srcs 0 with
    | None => None                                                                                (* :171 *)
    | Some (s, sm) =>
      if demotes [s] then
        match makeRecipe (mtype dm) (mtype sm) (offset dm) (offset sm) with
        | None => None
        | Some l => match createRecipe r srcs with None => None | Some l' => Some (SetRoot s :: l ++ l') end
        end
      else None
    end
  end.

Definition mem : Type := Z -> Z.
(** Four bytes are read and then written. *)
Definition copy4 (m : mem) (d s : Z) : mem := fun a => if (d <=? a) && (a <? d + 4) then m (s + (a - d)) else m a.
(** TypeConverter.cpp:245-247. *)
Fixpoint copyRange (k : nat) (m : mem) (d s : Z) : mem :=
  match k with O => m | S k => copyRange k (copy4 m d s) (d + 4) (s + 4) end.
(** [m_numItems] of the array at [a], behind a pointer of eight bytes. *)
Definition numItems (m : mem) (a : Z) : Z := m (a + 8) + 256 * m (a + 9) + 65536 * m (a + 10) + 16777216 * m (a + 11).

(** TypeConverter.cpp:183-262 [convert]: [view] is what is left of the block. The call for an item of an array
    (:222) gets the cursor of the next block, which does not exist, and therefore returns at once (:191-193);
    the cursor, given by value, comes back unchanged (:226), and the commands for the items are still in
    [view]. [None]: a null pointer, an index too large, or the end of what was written. *)
Definition convertNoBlock (m : mem) : mem := m.
Fixpoint convert (view : list cmd) (m : mem) (dst : Z) (srcPtrs : list Z) (src : option Z) : option mem :=
  match view with
  | [] => None
  | SetRoot i :: r =>                                                                             (* :201-208 *)
    match nth_error srcPtrs (Z.to_nat i) with None => None | Some p => convert r m dst srcPtrs (Some p) end
  | Iter d s st su n :: r =>                                                                      (* :210-230 *)
    match src with
    | None => None
    | Some p => convert r (Nat.iter (Z.to_nat (Z.min n (numItems m (p + s)))) convertNoBlock m) dst srcPtrs src
    end
  | Copy32 d s :: r =>                                                                            (* :232-238 *)
    match src with None => None | Some p => convert r (copy4 m (dst + d) (p + s)) dst srcPtrs src end
  | Copy32Range d s c :: r =>                                                                     (* :240-250 *)
    match src with None => None | Some p => convert r (copyRange (Z.to_nat c) m (dst + d) (p + s)) dst srcPtrs src end
  | EndScope :: r => Some m                                                                       (* :252-255 *)
  end.
(** TypeConverter.cpp:264-267 [applyConversionRecipe]. *)
Definition applyRecipe (l : list cmd) (m : mem) (dst : Z) (srcPtrs : list Z) : option mem := convert l m dst srcPtrs None.
