(* Model of /repo/repos/plywood/src/runtime/ply-runtime/container/WeakRef.h: one object with strong and weak references, used
   by any number of threads. Every atomic update is one step, the callbacks have a beginning and an end.
   Simplifications: references are counted per thread and passed on by moving them to another thread; the full callback
   is one step (nobody can do anything to the object afterwards); inside the partial callback the thread may drop weak
   references of its own and does nothing else with the counts. *)
From Coq Require Export List ZArith. Export ListNotations.
From Verif Require Export Base ListUpd.
Open Scope nat_scope.

(** What an observer sees of the callbacks (WeakRef.h:30, 32, 51). *)
Inductive event := PartialBegins | PartialEnds | Full.
(** A thread: strong and weak references, and when inside the partial callback, whether it will call the full one. *)
Record wthr := mkw { strong : nat; weak : nat; inpart : option bool }.
Record wst := mks { dual : Z; wths : list wthr; log : list event }.
(** The first thread has the first strong reference. *)
Definition winit (n : nat) : wst := mks 1 (mkw 1 0 None :: repeat (mkw 0 0 None) n) [].

Inductive wmove :=
| IncRef | DecRef            (* copy or drop a strong reference *)
| IncWeak | DecWeak          (* make a weak reference of a strong one, drop a weak one *)
| CopyWeak                   (* copy a weak reference *)
| Upgrade                    (* make a strong reference of a weak one: a Reference made of the pointer a WeakRef converts to (WeakRef.h:99-101) *)
| GiveStrong (u : nat) | GiveWeak (u : nat)
| Finish.                    (* the partial callback returns *)
(** [WAssert]: a lower bound asserted in WeakRef.h fails; [WLimit]: an upper bound (32767 references). *)
Inductive woutcome := WMoved (s : wst) | WStuck | WAssert | WLimit.

Definition low (x : Z) : Z := Z.land x 0xffff.
Definition high (x : Z) : Z := Z.shiftr x 16.

Definition wstep (s : wst) (t : nat) (m : wmove) : woutcome :=
  match nth_error (wths s) t with
  | None => WStuck
  | Some (mkw a b p) =>
    let old := dual s in
    let next d th e := WMoved (mks (u32 d) (upd (wths s) t th) (log s ++ e)) in
    (* WeakRef.h:37-42 *)
    let incWeakRef th :=
      if (low old <=? 0)%Z then WAssert else
      if (32767 <=? high old)%Z then WLimit else
      next (old + 0x10000)%Z th [] in
    (* WeakRef.h:44-54 *)
    let decWeakRef th :=
      if (high old <=? 0)%Z then WAssert else
      if (32767 <=? high old)%Z then WLimit else
      next (old - 0x10000)%Z th (if (high old =? 1)%Z && (old =? 0x10000)%Z then [Full] else []) in
    (* WeakRef.h:19-23 *)
    let incRef th :=
      if (32767 <=? low old)%Z then WLimit else next (old + 1)%Z th [] in
    match p with
    | Some alone =>
      match m with
      (* WeakRef.h:30-33 *)
      | Finish => next old (mkw a b None) (PartialEnds :: if alone then [Full] else [])
      | DecWeak => if b =? 0 then WStuck else decWeakRef (mkw a (b - 1) p)
      | _ => WStuck
      end
    | None =>
      match m with
      | IncRef => if a =? 0 then WStuck else incRef (mkw (S a) b None)
      | Upgrade => if b =? 0 then WStuck else incRef (mkw (S a) b None)
      (* WeakRef.h:25-35 *)
      | DecRef =>
        if a =? 0 then WStuck else
        if (low old <=? 0)%Z then WAssert else
        if (32767 <=? low old)%Z then WLimit else
        if (low old =? 1)%Z then next (old - 1)%Z (mkw (a - 1) b (Some (old =? 1)%Z)) [PartialBegins]
        else next (old - 1)%Z (mkw (a - 1) b None) []
      | IncWeak => if a =? 0 then WStuck else incWeakRef (mkw a (S b) None)
      | CopyWeak => if b =? 0 then WStuck else incWeakRef (mkw a (S b) None)
      | DecWeak => if b =? 0 then WStuck else decWeakRef (mkw a (b - 1) None)
      | GiveStrong u =>
        if a =? 0 then WStuck else
        match nth_error (wths s) u with
        | Some (mkw c d q) => if t =? u then WStuck else WMoved (mks old (upd (upd (wths s) t (mkw (a - 1) b None)) u (mkw (S c) d q)) (log s))
        | None => WStuck
        end
      | GiveWeak u =>
        if b =? 0 then WStuck else
        match nth_error (wths s) u with
        | Some (mkw c d q) => if t =? u then WStuck else WMoved (mks old (upd (upd (wths s) t (mkw a (b - 1) None)) u (mkw c (S d) q)) (log s))
        | None => WStuck
        end
      | Finish => WStuck
      end
    end
  end.
Fixpoint wrun (s : wst) (l : list (nat * wmove)) : woutcome :=
  match l with
  | [] => WMoved s
  | (t, m) :: l =>
    match wstep s t m with
    | WMoved s' => wrun s' l
    | WStuck => wrun s l
    | x => x
    end
  end.
