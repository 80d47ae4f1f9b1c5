(* Model of RT/algorithm/Sort.h, Filter.h and Find.h
   (RT = /repo/repos/plywood/src/runtime/ply-runtime).
   A view is the list of its items. [None] is a failed assertion, an access out of range, or running
   out of fuel; the theorems show none of these happens. *)
From Verif Require Export Base ListUpd.

Section Sort.
Context {A : Type}.
Variable isLess : A -> A -> bool.

Definition less_at (l : list A) (i j : nat) : option bool :=
  match nth_error l i, nth_error l j with Some x, Some y => Some (isLess x y) | _, _ => None end.

(** Sort.h:26-28: [while (lo < hi && isLess(view[lo], view[pivot])) lo++;] *)
Fixpoint scan_lo (fuel : nat) (l : list A) (lo hi pivot : nat) : option nat :=
  match fuel with
  | O => None
  | S fuel =>
      if (lo <? hi)%nat then
        match less_at l lo pivot with
        | Some true => scan_lo fuel l (S lo) hi pivot
        | Some false => Some lo
        | None => None
        end
      else Some lo
  end.
(** Sort.h:29-31: [while (lo < hi && isLess(view[pivot], view[hi])) hi--;] *)
Fixpoint scan_hi (fuel : nat) (l : list A) (lo hi pivot : nat) : option nat :=
  match fuel with
  | O => None
  | S fuel =>
      if (lo <? hi)%nat then
        match less_at l pivot hi with
        | Some true => scan_hi fuel l lo (hi - 1) pivot
        | Some false => Some hi
        | None => None
        end
      else Some hi
  end.
(** Sort.h:41 [std::swap(view[lo], view[hi])]. *)
Definition swap (l : list A) (i j : nat) : option (list A) :=
  match nth_error l i, nth_error l j with
  | Some x, Some y => Some (upd (upd l i y) j x)
  | _, _ => None
  end.
(** Sort.h:25-48: the partition loop, with its assertions. Result: (view, lo, hi, pivot). *)
Fixpoint partition (fuel : nat) (l : list A) (lo hi pivot : nat) : option (list A * nat * nat * nat) :=
  match fuel with
  | O => None
  | S fuel =>
      match scan_lo (S (length l)) l lo hi pivot with
      | None => None
      | Some lo =>
          match scan_hi (S (length l)) l lo hi pivot with
          | None => None
          | Some hi =>
              if (hi <=? lo)%nat then Some (l, lo, hi, pivot)
              else
                match less_at l lo pivot, less_at l pivot hi with
                | Some false, Some false =>
                    match swap l lo hi with
                    | None => None
                    | Some l =>
                        partition fuel l (S lo) hi
                          (if (lo =? pivot)%nat then hi else if (hi =? pivot)%nat then lo else pivot)
                    end
                | _, _ => None
                end
          end
      end
  end.

Section Rec.
Variable sort_rec : list A -> option (list A).

(** Sort.h:52-59: the left part. *)
Fixpoint left_part (l : list A) (lo pivot : nat) : option (list A) :=
  match lo with
  | S (S _ as lo1) =>
      match less_at l lo1 pivot with
      | Some false => left_part l lo1 pivot
      | Some true =>
          match sort_rec (firstn lo l) with
          | Some s => Some (s ++ skipn lo l)
          | None => None
          end
      | None => None
      end
  | _ => Some l
  end.
(** Sort.h:60-67: the right part; [fuel] bounds the remaining indices. *)
Fixpoint right_part (fuel : nat) (l : list A) (hi pivot : nat) : option (list A) :=
  match fuel with
  | O => None
  | S fuel =>
      if (S hi <? length l)%nat then
        match less_at l pivot hi with
        | Some false => right_part fuel l (S hi) pivot
        | Some true =>
            match sort_rec (skipn hi l) with
            | Some s => Some (firstn hi l ++ s)
            | None => None
            end
        | None => None
        end
      else Some l
  end.
End Rec.

(** Sort.h:18-68 [sort]. *)
Fixpoint sort_fuel (fuel : nat) (l : list A) : option (list A) :=
  match fuel with
  | O => None
  | S fuel =>
      if (length l <=? 1)%nat then Some l
      else
        match partition (S (length l)) l 0 (length l - 1) (Nat.div (length l) 2) with
        | None => None
        | Some (l, lo, hi, pivot) =>
            if (hi <=? lo)%nat then
              match left_part (sort_fuel fuel) l lo pivot with
              | None => None
              | Some l => right_part (sort_fuel fuel) (S (length l)) l hi pivot
              end
            else None
        end
  end.
Definition sort (l : list A) : option (list A) := sort_fuel (S (length l)) l.
End Sort.

Section Filter.
Context {A : Type}.
(** RT/container/Array.h:480-485 [Array::eraseQuick(pos)], on the list of items. *)
Definition eraseQuick (l : list A) (pos : nat) : option (list A) :=
  match nth_error l (length l - 1) with
  | Some last => if (pos <? length l)%nat then Some (firstn (length l - 1) (upd l pos last)) else None
  | None => None
  end.
(** Filter.h:11-20 [filter]. *)
Fixpoint filter_loop (f : A -> bool) (fuel : nat) (l : list A) (i : nat) : option (list A) :=
  match fuel with
  | O => None
  | S fuel =>
      match nth_error l i with
      | None => Some l
      | Some x =>
          if f x then filter_loop f fuel l (S i)
          else match eraseQuick l i with Some l => filter_loop f fuel l i | None => None end
      end
  end.
Definition ply_filter (f : A -> bool) (l : list A) : option (list A) := filter_loop f (S (length l)) l 0.

(** Find.h:16-31 [find]: the index, or -1. *)
Fixpoint find_loop (f : A -> bool) (l : list A) (i : Z) : Z :=
  match l with [] => -1 | x :: r => if f x then i else find_loop f r (i + 1) end.
Definition ply_find (f : A -> bool) (l : list A) : Z := find_loop f l 0.
(** Find.h:39-54 [rfind]. [None] is the failed assertion in [safeDemote<s32>(numItems - 1)], where the
    subtraction is in u32. *)
Fixpoint rfind_loop (f : A -> bool) (rl : list A) (i : Z) : Z :=
  match rl with [] => -1 | x :: r => if f x then i else rfind_loop f r (i - 1) end.
Definition ply_rfind (f : A -> bool) (l : list A) : option Z :=
  let last := u32 (zlen l - 1) in
  if last <=? 2 ^ 31 - 1 then Some (rfind_loop f (rev l) last) else None.
End Filter.
