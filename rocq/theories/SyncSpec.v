(* What race detectors, events and lists of trace groups must do. *)
From Coq Require Import Permutation.
From Verif Require Export SyncModel.
Open Scope nat_scope.

(* ---- RaceDetector ---- *)
(** Every thread exits only what it entered. *)
Definition opened (t : nat) (l : list rop) : nat :=
  length (filter (fun o => match o with Enter u => u =? t | _ => false end) l).
Definition closed (t : nat) (l : list rop) : nat :=
  length (filter (fun o => match o with Exit u => u =? t | _ => false end) l).
Definition bracketed (l : list rop) : Prop := forall a b t, l = a ++ b -> closed t a <= opened t a.
(** One section at a time: each is left by the thread that entered it before the next is entered; the last may be open. *)
Inductive serial : list rop -> Prop :=
| serial_nil : serial []
| serial_open t : serial [Enter t]
| serial_section t l : serial l -> serial (Enter t :: Exit t :: l).

(** Entering and leaving take turns, whichever threads do it. *)
Definition enters (o : rop) : bool := match o with Enter _ => true | Exit _ => false end.
Definition turns (l : list rop) : Prop := forall a o b, l = a ++ o :: b -> enters o = Nat.even (length a).

(* ---- ManualResetEvent ---- *)
(** The notes of an event whose state is [b]: signalling sets it, resetting clears it, and a waiting thread gets
    through only when it is set. Every call has its effect once, between its beginning and its end; [busy t] is the
    call thread [t] is in and whether it has had its effect. *)
Inductive event_notes : bool -> (nat -> option (call * bool)) -> list note -> Prop :=
| en_nil b f : event_notes b f []
| en_called b f t c l : f t = None -> event_notes b (set f t (Some (c, false))) l -> event_notes b f (Called t c :: l)
| en_signal b f t l : f t = Some (Signal, false) -> event_notes true (set f t (Some (Signal, true))) l ->
    event_notes b f (Done t Signal :: l)
| en_reset b f t l : f t = Some (Reset, false) -> event_notes false (set f t (Some (Reset, true))) l ->
    event_notes b f (Done t Reset :: l)
| en_wait f t l : f t = Some (Wait, false) -> event_notes true (set f t (Some (Wait, true))) l ->
    event_notes true f (Done t Wait :: l)
| en_returned b f t c l : f t = Some (c, true) -> event_notes b (set f t None) l -> event_notes b f (Returned t c :: l).

(** Nobody can go on unless a sleeper wakes for no reason or a new call begins. *)
Definition stuck (s : estate) : Prop := forall t, estep s t EGo = (s, []).

(* ---- Trace_Counters ---- *)
(** An order of the groups added, in which one whose adding ended before that of another began comes first. *)
Definition added_order (s : gstate) (order : list nat) : Prop :=
  NoDup order /\ (forall g, In g order <-> In (false, g) (ghist s)) /\
  forall g h, In h order -> (exists a b c, ghist s = a ++ (false, g) :: b ++ (true, h) :: c) ->
    exists a b c, order = a ++ g :: b ++ h :: c.
