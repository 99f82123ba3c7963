(** Calls of WriteFile, as seen from outside. *)
From Coq Require Import Strings.String Lists.List.
From Verif Require Import GoBase WriteModel.
Import ListNotations.
Local Open Scope string_scope.

(** the file and its bytes: the path's first entry *)
Inductive holds : files -> string -> string -> Prop :=
| holds_here : forall path bytes fs, holds ((path, bytes) :: fs) path bytes
| holds_later : forall path bytes p b fs, p <> path -> holds fs path bytes -> holds ((p, b) :: fs) path bytes.
Definition same_file (fs fs' : files) (path : string) : Prop := forall bytes, holds fs path bytes <-> holds fs' path bytes.
(** The i-th call, WriteFile(dest, data), has returned *)
Definition returned (s : system) (i : nat) (dest data : string) (err : option failure) : Prop :=
  nth_error (calls s) i = Some (Call dest data (PEnd err)).
(** it is the i-th call *)
Definition called (s : system) (i : nat) (dest data : string) : Prop :=
  exists p, nth_error (calls s) i = Some (Call dest data p).
(** no call is at work on the file *)
Definition quiet (s : system) (dest : string) : Prop :=
  forall i data p, nth_error (calls s) i = Some (Call dest data p) -> exists err, p = PEnd err.
(** Of the calls that began since [s0] only the i-th is for the file. *)
Definition only_call (s0 s : system) (i : nat) (dest : string) : Prop :=
  forall j data, called s j dest data -> j = i \/ j < List.length (calls s0).
Definition no_call (s0 s : system) (dest : string) : Prop :=
  forall j data, called s j dest data -> j < List.length (calls s0).
