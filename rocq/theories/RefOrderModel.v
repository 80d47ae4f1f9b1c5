(* Model of /repo/repos/plywood/src/runtime/ply-runtime/container/Reference.h:11-57 on release/acquire memory: which writes
   are visible to the callback that destroys the object. One object, [n] threads. As the comment of Reference.h:17-19 asks,
   the constructing thread issues a release fence after construction and the callback an acquire fence.
   Simplifications: a thread copies a reference straight to another thread, with or without synchronisation; the callback runs
   in the same step as the last decRef (nobody has a reference in between, by the theorems about RefCountModel). *)
From Verif Require Export WeakMemModel.
Open Scope nat_scope.

(** Locations: m_refCount (Reference.h:31), what the constructor writes, and what the uses by thread [t] access. *)
Definition cnt : nat := 0.
Definition made_at : nat := 1.
Definition use_at (t : nat) : nat := 2 + t.

Record oth := mkoth { ov : tview; holds : nat }.
Record ost := mko { omem : mem; oths : list oth; made : bool }.
Definition oinit (n : nat) : ost := mko mem0 (repeat (mkoth tv0 0) n) false.

Inductive omove :=
| Make                          (* construct the object, fence, take the first reference *)
| Copy (u : nat) (sync : bool)  (* a copy for thread u *)
| Use                           (* use the object *)
| Drop (fence : bool).          (* drop one reference, after a release fence or not *)
Inductive ooutcome := OMoved (s : ost) | OStuck | ORace (l : nat).

(** The callback: everything the object consists of. *)
Fixpoint touch_all (m : mem) (v : tview) (ls : list nat) : (mem * tview) + nat :=
  match ls with
  | [] => inl (m, v)
  | l :: ls => match touch m v l (fun x => x) with Some (_, m, v) => touch_all m v ls | None => inr l end
  end.
Definition destroy (m : mem) (v : tview) (n : nat) : (mem * tview) + nat :=
  touch_all m (fence_acquire v) (made_at :: map use_at (seq 0 n)).

Definition ostep (s : ost) (t : nat) (mv : omove) : ooutcome :=
  match nth_error (oths s) t with
  | None => OStuck
  | Some (mkoth v h) =>
    match mv with
    | Make =>
      if made s then OStuck else
      match touch (omem s) v made_at (fun _ => 1%Z) with
      | None => ORace made_at
      | Some (_, m, v) =>
        match rmw Relaxed m (fence_release v) cnt (fun x => x + 1)%Z with
        | Some (_, m, v) => OMoved (mko m (upd (oths s) t (mkoth v 1)) true)
        | None => OStuck
        end
      end
    (* Reference.h:34-38 *)
    | Copy u sync =>
      if h =? 0 then OStuck else
      match rmw Relaxed (omem s) v cnt (fun x => x + 1)%Z with
      | Some (_, m, v) =>
        let ths := upd (oths s) t (mkoth v h) in
        match nth_error ths u with
        | Some (mkoth w k) =>
          let w := if sync then mktv (vjoin (vcur w) (vcur v)) (vrel w) (vjoin (vacq w) (vcur v)) else w in
          OMoved (mko m (upd ths u (mkoth w (S k))) (made s))
        | None => OStuck
        end
      | None => OStuck
      end
    (* Reference.h:89-91 *)
    | Use =>
      if h =? 0 then OStuck else
      match touch (omem s) v (use_at t) (fun x => x + 1)%Z with
      | Some (_, m, v) => OMoved (mko m (upd (oths s) t (mkoth v h)) (made s))
      | None => ORace (use_at t)
      end
    (* Reference.h:39-45 *)
    | Drop fence =>
      if h =? 0 then OStuck else
      match rmw Relaxed (omem s) (if fence then fence_release v else v) cnt (fun x => x - 1)%Z with
      | Some (old, m, v) =>
        if (old =? 1)%Z then
          match destroy m v (length (oths s)) with
          | inl (m, v) => OMoved (mko m (upd (oths s) t (mkoth v (h - 1))) (made s))
          | inr l => ORace l
          end
        else OMoved (mko m (upd (oths s) t (mkoth v (h - 1))) (made s))
      | None => OStuck
      end
    end
  end.
Fixpoint orun (s : ost) (l : list (nat * omove)) : ooutcome :=
  match l with
  | [] => OMoved s
  | (t, m) :: l =>
    match ostep s t m with
    | OMoved s' => orun s' l
    | OStuck => orun s l
    | x => x
    end
  end.
