(** * MainSpec: the life of the process, as seen from outside

    A history is the list of the events seen, oldest first, each with its time in nanoseconds. *)
From Coq Require Import ZArith List.
From Verif Require Import MainModel.
Import ListNotations.
Local Open Scope Z_scope.

Definition seconds (n : Z) : Z := n * 1000000000.

Definition history (p : proc) : list (Z * event) := rev (p_log p).
Definition clock (p : proc) : Z := p_now p.

Definition seen (p : proc) (t : Z) (e : event) : Prop := In (t, e) (history p).
Definition asked (p : proc) (t : Z) (r : nat) : Prop := exists c, seen p t (ERequest c r).
Definition answered (p : proc) (t : Z) (r : nat) : Prop := exists c, seen p t (EReply c r).
Definition cut_off (p : proc) (t : Z) (r : nat) : Prop := exists c, seen p t (EHangUp c r).
Definition ended (p : proc) : Prop := exists t, (exists n, seen p t (EExit n)) \/ seen p t EKilled.

(** The first interrupt, at time [t]; the history before it and after it *)
Definition first_interrupt (p : proc) (before : list (Z * event)) (t : Z) (after : list (Z * event)) : Prop :=
  history p = before ++ (t, ESignal SInt) :: after /\ forall t', ~ In (t', ESignal SInt) before.

(** The time the process was asked to wait for requests in work: 15 seconds unless given *)
Definition patience (f : flags) : option Z :=
  match f with FWait (Some w) => Some w | FWait None => Some (seconds 15) | _ => None end.

(** Nothing but interrupts is sent to the process, and no request takes it down *)
Definition only_interrupts (p : proc) : Prop := forall t s, seen p t (ESignal s) -> s = SInt.
Definition harmless (deadly : nat -> bool) : Prop := forall r, deadly r = false.
