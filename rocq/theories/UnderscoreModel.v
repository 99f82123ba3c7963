(** Model of the creation of folders (pkg/serializables/underscore.go) on a
    shared file system, step by step. *)
From Coq Require Import Strings.String Strings.Ascii Lists.List Bool.
From Verif Require Import GoBase.
Import ListNotations.
Open Scope string_scope.

(** pkg/serializables/underscore.go:13-16 [Underscore] *)
Record underscore := Underscore { uEntry : string; uNote : string }.

(** The directories in <WorkingDirectoryPath>/folders, by name, each with the
    content of its file "_", if it has one.  Their other files play no role. *)
Definition folders := list (string * option string).

(** What a call returns: the id and the error ("" and nil of Go's error are
    [None]).  The texts of the errors of the operating system are left out:
    they are one of these. *)
Inductive failure := NoWorkingDirectory | Exists | MkdirFailed | EncodeFailed.
Definition outcome : Type := string * option failure.

(** Overwriting the start of a file *)
Fixpoint sdrop (n : nat) (s : string) : string :=
  match n, s with
  | O, _ => s
  | S m, EmptyString => EmptyString
  | S m, String _ r => sdrop m r
  end.
Definition overwrite (new old : string) : string := new ++ sdrop (String.length new) old.

(** Where a call of NewFolder is *)
Inductive point :=
| PIdent                                  (* about to make an id *)
| PStat (id : string)                     (* about to os.Stat the directory *)
| PMkdir (id : string)                    (* about to os.Mkdir it *)
| PRestat (id : string)                   (* Mkdir failed, about to os.Stat *)
| POpen (id : string)                     (* about to open "_" *)
| PWrite (id : string) (old written : string)  (* writing "_": what it held, and what is written so far *)
| PEnd (o : outcome).                     (* returned *)

Record call := Call { cKey : string; cUnderscore : underscore; cPoint : point }.
Definition go (c : call) (p : point) : call := Call (cKey c) (cUnderscore c) p.

Section WithEnvironment.
  (** WorkingDirectoryPath is not empty *)
  Variable configured : bool.
  (** uuid.NewMD5(nil UUID, key).String() *)
  Variable md5 : string -> string.
  (** what json.Encoder.Encode writes for an Underscore *)
  Variable encode : underscore -> string.
  (** json.Unmarshal into an Underscore *)
  Variable decode : string -> res underscore.

  (** pkg/serializables/underscore.go:28-68 [NewFolder], one system call (or
      one piece of a write) at a time.  uuid.New() may give any id. *)
  Inductive call_step (c : call) : folders -> folders -> call -> Prop :=
  (* 29-31 *)
  | st_unconfigured : forall fs, cPoint c = PIdent -> configured = false ->
      call_step c fs fs (go c (PEnd ("", Some NoWorkingDirectory)))
  (* 32-42 *)
  | st_keyed : forall fs, cPoint c = PIdent -> configured = true -> cKey c <> "" ->
      call_step c fs fs (go c (PStat (md5 (cKey c))))
  | st_random : forall fs id, cPoint c = PIdent -> configured = true -> cKey c = "" ->
      call_step c fs fs (go c (PStat id))
  (* 42-46: it exists (a Stat that fails for another reason counts as not) *)
  | st_exists : forall fs id x, cPoint c = PStat id -> sget id fs = Some x -> cKey c <> "" ->
      call_step c fs fs (go c (PEnd (id, Some Exists)))
  | st_again : forall fs id x id', cPoint c = PStat id -> sget id fs = Some x -> cKey c = "" ->
      call_step c fs fs (go c (PStat id'))
  | st_absent : forall fs id, cPoint c = PStat id -> sget id fs = None ->
      call_step c fs fs (go c (PMkdir id))
  | st_stat_failed : forall fs id, cPoint c = PStat id -> call_step c fs fs (go c (PMkdir id))
  (* 51: Mkdir succeeds only where there is nothing *)
  | st_mkdir : forall fs id, cPoint c = PMkdir id -> sget id fs = None ->
      call_step c fs (sset id None fs) (go c (POpen id))
  | st_mkdir_failed : forall fs id, cPoint c = PMkdir id ->
      call_step c fs fs (go c (PRestat id))
  (* 52-57 *)
  | st_restat : forall fs id x, cPoint c = PRestat id -> sget id fs = Some x ->
      call_step c fs fs (go c (PEnd (id, Some MkdirFailed)))
  | st_restat_failed : forall fs id, cPoint c = PRestat id ->
      call_step c fs fs (go c (PEnd ("", Some MkdirFailed)))
  (* 59: O_CREATE|O_WRONLY does not truncate *)
  | st_open : forall fs id old, cPoint c = POpen id -> sget id fs = Some (Some old) ->
      call_step c fs fs (go c (PWrite id old ""))
  | st_create : forall fs id, cPoint c = POpen id -> sget id fs = Some None ->
      call_step c fs (sset id (Some "") fs) (go c (PWrite id "" ""))
  (* 59, 62: the error of OpenFile is ignored, Encode then fails *)
  | st_open_failed : forall fs id, cPoint c = POpen id ->
      call_step c fs fs (go c (PEnd ("", Some EncodeFailed)))
  (* 62: the next piece *)
  | st_write : forall fs id old w more rest, cPoint c = PWrite id old w ->
      more <> "" -> encode (cUnderscore c) = w ++ more ++ rest ->
      call_step c fs (sset id (Some (overwrite (w ++ more) old)) fs) (go c (PWrite id old (w ++ more)))
  (* 62-65 *)
  | st_write_failed : forall fs id old w, cPoint c = PWrite id old w ->
      call_step c fs fs (go c (PEnd ("", Some EncodeFailed)))
  (* 66 *)
  | st_written : forall fs id old w, cPoint c = PWrite id old w -> encode (cUnderscore c) = w ->
      call_step c fs fs (go c (PEnd (id, None))).

  (** Any number of calls at any time; [crash] ends the process: all calls are
      gone, the files stay. *)
  Record system := System { files : folders; calls : list call }.
  Inductive sys_step : system -> system -> Prop :=
  | sys_arrive : forall fs cs key u, sys_step (System fs cs) (System fs (cs ++ [Call key u PIdent]))
  | sys_call : forall fs fs' a c c' b, call_step c fs fs' c' ->
      sys_step (System fs (a ++ c :: b)) (System fs' (a ++ c' :: b)).
  Inductive sys_run : system -> system -> Prop :=
  | sys_refl : forall s, sys_run s s
  | sys_more : forall s s' s'', sys_run s s' -> sys_step s' s'' -> sys_run s s''.
  Definition crash (s : system) : system := System (files s) [].

  (** pkg/serializables/underscore.go:18-26 [GetEntryFileName]; None is an
      error of ReadFile *)
  Definition get_entry_file_name (fs : folders) (id : string) : res string :=
    match sget id fs with
    | Some (Some bytes) => do u <- decode bytes; Ok (uEntry u)
    | _ => Err "no such file or directory"
    end.
End WithEnvironment.
