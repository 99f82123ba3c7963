(** * NewCacheModel: pkg/cache/cache.go:16-32, the making of the response cache *)
From Coq Require Import String List Bool Arith.
Import ListNotations.

(** sync.Once (standard library): nobody has called Do, its function is running, its function has
    returned. While it is running other callers of Do wait. *)
Inductive once := OFresh | ORunning | ODone.

(** where a call of NewCache is; a cache is known by the number of its gocache.New *)
Inductive npc :=
| NStart                    (* before cache.go:24 *)
| NWritten                  (* before line 25 [if dry] *)
| NOnce                     (* before line 28 [once.Do] *)
| NMaking                   (* in line 29 [gocache.New] *)
| NAssigning (c : nat)      (* in line 29, before the assignment to appCache *)
| NLast                     (* before line 26 or line 31 [return appCache] *)
| NDone (c : option nat).   (* has returned it; None is nil *)

(** cache.go:16-21: the variables of the package and the calls of NewCache with their arguments *)
Record nstate := NState { n_dry : bool; n_once : once; n_app : option nat; n_made : nat; n_calls : list (bool * npc) }.
Definition nstart : nstate := NState false OFresh None 0 [].

(** cache.go:23-32 [NewCache]: one step of one call. Simplification: reading or writing dry or
    appCache is one step (the code does not synchronise them). *)
Inductive nstep : nstate -> nstate -> Prop :=
| ns_write d o a m l1 b l2 : nstep (NState d o a m (l1 ++ (b, NStart) :: l2)) (NState b o a m (l1 ++ (b, NWritten) :: l2))
| ns_read d o a m l1 b l2 :
    nstep (NState d o a m (l1 ++ (b, NWritten) :: l2)) (NState d o a m (l1 ++ (b, if d then NLast else NOnce) :: l2))
| ns_first d a m l1 b l2 : nstep (NState d OFresh a m (l1 ++ (b, NOnce) :: l2)) (NState d ORunning a m (l1 ++ (b, NMaking) :: l2))
| ns_later d a m l1 b l2 : nstep (NState d ODone a m (l1 ++ (b, NOnce) :: l2)) (NState d ODone a m (l1 ++ (b, NLast) :: l2))
| ns_make d o a m l1 b l2 : nstep (NState d o a m (l1 ++ (b, NMaking) :: l2)) (NState d o a (S m) (l1 ++ (b, NAssigning m) :: l2))
| ns_assign d o a m l1 b c l2 :
    nstep (NState d o a m (l1 ++ (b, NAssigning c) :: l2)) (NState d ODone (Some c) m (l1 ++ (b, NLast) :: l2))
| ns_return d o a m l1 b l2 : nstep (NState d o a m (l1 ++ (b, NLast) :: l2)) (NState d o a m (l1 ++ (b, NDone a) :: l2)).
Inductive nsteps : nstate -> nstate -> Prop :=
| nsteps_refl s : nsteps s s
| nsteps_step s s' s'' : nsteps s s' -> nstep s' s'' -> nsteps s s''.

(** somebody calls NewCache(b) *)
Definition ncall (b : bool) (s : nstate) : nstate := NState (n_dry s) (n_once s) (n_app s) (n_made s) (n_calls s ++ [(b, NStart)]).
(** any number of calls, at any times *)
Inductive nrun : nstate -> Prop :=
| nrun_start : nrun nstart
| nrun_call s b : nrun s -> nrun (ncall b s)
| nrun_step s s' : nrun s -> nstep s s' -> nrun s'.
