(** * NewCacheSpec: what a caller of NewCache sees *)
From Coq Require Import List Bool Arith.
From Verif Require Import NewCacheModel.
Import ListNotations.

(** a call with this argument has returned this *)
Definition returned (s : nstate) (dry : bool) (c : option nat) : Prop := In (dry, NDone c) (n_calls s).
(** somebody has called with this argument *)
Definition called (s : nstate) (dry : bool) : Prop := exists pc, In (dry, pc) (n_calls s).
(** no call is being worked on *)
Definition quiet (s : nstate) : Prop := forall b pc, In (b, pc) (n_calls s) -> exists c, pc = NDone c.
