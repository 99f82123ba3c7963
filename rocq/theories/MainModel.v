(** * MainModel: cmd/telefacts/main.go, the life of the process

    [main], [listenForShutdown] and the settings of the [http.Server] (main.go:20-32, 57-77) as a
    transition system, with what the packages they call are documented to do:
    - net/http: [ListenAndServe] listens and serves, each connection in a goroutine of its own, one
      request at a time; a handler's panic closes its connection; with [WriteTimeout] nothing can be
      sent later than that after the request was read; [Shutdown] refuses further listening, closes
      the listener, then the idle connections, and returns once no connection is in use or its
      context has expired, whichever is first;
    - os/signal: after [Notify(c, os.Interrupt)] an interrupt is sent to [c] unless [c] is full;
      before that an interrupt, and at any time SIGTERM or SIGKILL, ends the process;
    - flag: [Parse] ends the process with status 0 if help is asked for, 2 if it cannot parse.

    The work of one request is not modelled here (ServerModel does that): it takes any time and may
    panic or, by a panic in a goroutine it starts, take the process down (C131).

    Simplification: time passes while the server is set up, while requests are worked on and while
    [main] waits; all other steps of [main] take no time. A client that hangs up while its request
    is worked on is not modelled (nothing the process does depends on it). Nor is the line main.go:25
    prints after [Shutdown]. *)
From Coq Require Import ZArith List Bool.
Import ListNotations.
Local Open Scope Z_scope.

Inductive signal := SInt | STerm | SKill.

(** What can be seen of the process from outside *)
Inductive event :=
| EListen                      (* the port is open *)
| EFails                       (* the port could not be opened, which is printed (main.go:25) *)
| EAccept (c : nat)            (* connection c is accepted *)
| ERequest (c r : nat)         (* request r has been read from connection c *)
| EReply (c r : nat)           (* the answer to r has been written *)
| EHangUp (c r : nat)          (* connection c is closed without an answer to r *)
| ESignal (s : signal)         (* the process is sent a signal *)
| EExit (status : nat)         (* the process exits *)
| EKilled.                     (* the process is ended by a signal *)

(** A connection, and the request being worked on with the time after which nothing can be sent *)
Record conn := Conn { c_id : nat; c_busy : option (nat * Z) }.

(** What main.go:28-30 makes of the command line *)
Inductive flags := FWait (given : option Z) | FHelp | FBad.

(** Where [main] is *)
Inductive phase :=
| MSetup                       (* main.go:22 *)
| MStarted                     (* main.go:28-30, the goroutine of line 23 has been started *)
| MParsed (wait : Z)           (* main.go:31, 68-70 *)
| MWaiting (wait : Z)          (* main.go:72 *)
| MStopping (deadline : Z)     (* main.go:73-76: in Shutdown, before the listener is closed *)
| MDraining (deadline : Z)     (* main.go:76: in Shutdown *)
| MGone.

(** Where the goroutine of main.go:23-27 is *)
Inductive listener := LNone | LStarting | LListening | LFailed | LClosed.

Record proc := Proc {
  p_now : Z;
  p_main : phase;
  p_listener : listener;
  p_signal : bool;             (* the channel c of main.go:68 holds a signal *)
  p_conns : list conn;
  p_log : list (Z * event) }.  (* newest first *)

Definition second : Z := 1000000000. (* time.Second *)
(** main.go:60 *)
Definition write_timeout : Z := 15 * second.
(** main.go:29 *)
Definition default_wait : Z := 15 * second.

Definition initial : proc := Proc 0 MSetup LNone false [] [].

Definition log_event (e : event) (p : proc) : proc :=
  Proc (p_now p) (p_main p) (p_listener p) (p_signal p) (p_conns p) ((p_now p, e) :: p_log p).
Definition goto (m : phase) (p : proc) : proc :=
  Proc (p_now p) m (p_listener p) (p_signal p) (p_conns p) (p_log p).
Definition listening (l : listener) (p : proc) : proc :=
  Proc (p_now p) (p_main p) l (p_signal p) (p_conns p) (p_log p).
Definition conns (cs : list conn) (p : proc) : proc :=
  Proc (p_now p) (p_main p) (p_listener p) (p_signal p) cs (p_log p).
Definition holding (b : bool) (p : proc) : proc :=
  Proc (p_now p) (p_main p) (p_listener p) b (p_conns p) (p_log p).
Definition tick (p : proc) : proc :=
  Proc (p_now p + 1) (p_main p) (p_listener p) (p_signal p) (p_conns p) (p_log p).
(** The end of the process: its listener and connections are closed *)
Definition gone (e : event) (p : proc) : proc := listening LClosed (conns [] (goto MGone (log_event e p))).

(** net/http [Server.shuttingDown]: set by [Shutdown] before anything else *)
Definition shutting (m : phase) : bool := match m with MStopping _ | MDraining _ => true | _ => false end.
(** main.go:71 has been executed *)
Definition notified (m : phase) : bool := match m with MWaiting _ | MStopping _ | MDraining _ => true | _ => false end.
(** [main] has something to do at once *)
Definition urgent (p : proc) : bool :=
  match p_main p with
  | MSetup => false
  | MStarted | MParsed _ | MStopping _ => true
  | MWaiting _ => p_signal p
  | MDraining d => d <=? p_now p
  | MGone => true
  end.
Definition used (cs : list conn) (c : nat) : bool := existsb (fun k => Nat.eqb (c_id k) c) cs.
Definition asked_before (l : list (Z * event)) (r : nat) : bool :=
  existsb (fun e => match snd e with ERequest _ r' => Nat.eqb r' r | _ => false end) l.
Definition idle (k : conn) : bool := match c_busy k with None => true | _ => false end.

Section Process.
  Variable given : flags.              (* the command line *)
  Variable panics deadly : nat -> bool. (* requests whose handler panics, or takes the process down *)

  Inductive pstep : proc -> proc -> Prop :=
  (* main.go:22-23 *)
  | p_setup p : p_main p = MSetup -> pstep p (listening LStarting (goto MStarted p))
  (* main.go:24: ListenAndServe, which fails if the port is taken, and at once after Shutdown *)
  | p_listen p : p_listener p = LStarting -> shutting (p_main p) = false ->
      pstep p (listening LListening (log_event EListen p))
  | p_listen_fails p : p_listener p = LStarting -> pstep p (listening LFailed (log_event EFails p))
  | p_accept p c : p_listener p = LListening -> used (p_conns p) c = false ->
      pstep p (conns (Conn c None :: p_conns p) (log_event (EAccept c) p))
  | p_request p c r l1 l2 : p_conns p = l1 ++ Conn c None :: l2 -> asked_before (p_log p) r = false ->
      pstep p (conns (l1 ++ Conn c (Some (r, p_now p + write_timeout)) :: l2) (log_event (ERequest c r) p))
  (* the handler has returned: in time, or not *)
  | p_reply p c r d l1 l2 : p_conns p = l1 ++ Conn c (Some (r, d)) :: l2 -> p_now p <= d -> panics r = false -> deadly r = false ->
      pstep p (conns (l1 ++ (if shutting (p_main p) then [] else [Conn c None]) ++ l2) (log_event (EReply c r) p))
  | p_late p c r d l1 l2 : p_conns p = l1 ++ Conn c (Some (r, d)) :: l2 -> d < p_now p ->
      pstep p (conns (l1 ++ l2) (log_event (EHangUp c r) p))
  | p_panic p c r d l1 l2 : p_conns p = l1 ++ Conn c (Some (r, d)) :: l2 -> panics r = true ->
      pstep p (conns (l1 ++ l2) (log_event (EHangUp c r) p))
  | p_dies p c r d l1 l2 : p_conns p = l1 ++ Conn c (Some (r, d)) :: l2 -> deadly r = true ->
      pstep p (gone (EExit 2) p)
  (* an idle connection is closed: by the client, main.go:61-62, or Shutdown *)
  | p_close p c l1 l2 : p_conns p = l1 ++ Conn c None :: l2 -> pstep p (conns (l1 ++ l2) p)
  (* main.go:28-31 *)
  | p_flags p w : p_main p = MStarted -> given = FWait w ->
      pstep p (goto (MParsed (match w with Some n => n | None => default_wait end)) p)
  | p_help p : p_main p = MStarted -> given = FHelp -> pstep p (gone (EExit 0) p)
  | p_bad p : p_main p = MStarted -> given = FBad -> pstep p (gone (EExit 2) p)
  (* main.go:71 *)
  | p_notify p w : p_main p = MParsed w -> pstep p (goto (MWaiting w) p)
  (* main.go:72-74 *)
  | p_take p w : p_main p = MWaiting w -> p_signal p = true ->
      pstep p (holding false (goto (MStopping (p_now p + w)) p))
  (* main.go:76 *)
  | p_stop p d : p_main p = MStopping d ->
      pstep p (listening (match p_listener p with LListening => LClosed | l => l end) (goto (MDraining d) p))
  (* main.go:76-77 *)
  | p_drained p d : p_main p = MDraining d -> forallb idle (p_conns p) = true -> pstep p (gone (EExit 0) p)
  | p_expired p d : p_main p = MDraining d -> d <= p_now p -> pstep p (gone (EExit 0) p)
  (* signals *)
  | p_interrupt p : p_main p <> MGone -> notified (p_main p) = true ->
      pstep p (holding true (log_event (ESignal SInt) p))
  | p_interrupt_early p : p_main p <> MGone -> notified (p_main p) = false ->
      pstep p (gone EKilled (log_event (ESignal SInt) p))
  | p_terminate p s : p_main p <> MGone -> s <> SInt ->
      pstep p (gone EKilled (log_event (ESignal s) p))
  | p_tick p : urgent p = false -> pstep p (tick p).

  Inductive prun : proc -> proc -> Prop :=
  | prun_refl p : prun p p
  | prun_step p q r : prun p q -> pstep q r -> prun p r.
End Process.
