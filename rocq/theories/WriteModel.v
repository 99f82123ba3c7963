(** Model of internal/actions/writeFile.go on a shared file system, step by step. *)
From Coq Require Import Strings.String Strings.Ascii Lists.List Bool.
From Verif Require Import GoBase.
Import ListNotations.
Local Open Scope string_scope.

(** The regular files, by path, with their bytes. Simplification: a path names one file, there are no links, and no
    one removes or renames a file. *)
Definition files := list (string * string).

(** What an error is about; the texts of the operating system are left out. *)
Inductive failure := OpenFailed | WriteFailed.

(** Where a call of WriteFile is *)
Inductive point :=
| POpen                                   (* about to open the file *)
| PWrite (written : string)               (* what it has written so far *)
| PEnd (err : option failure).            (* returned *)

Record call := Call { cDest : string; cData : string; cPoint : point }.
Definition go (c : call) (p : point) : call := Call (cDest c) (cData c) p.

Fixpoint sskip (n : nat) (s : string) : string :=
  match n, s with
  | O, _ => s
  | S m, EmptyString => EmptyString
  | S m, String _ r => sskip m r
  end.
(** the first [n] bytes; bytes behind the end read as zero *)
Fixpoint first_bytes (n : nat) (s : string) : string :=
  match n, s with
  | O, _ => ""
  | S m, EmptyString => String zero (first_bytes m "")
  | S m, String b r => String b (first_bytes m r)
  end.
(** write(2) at offset [n] *)
Definition write_at (n : nat) (new old : string) : string :=
  first_bytes n old ++ new ++ sskip (n + String.length new) old.

(** internal/actions/writeFile.go:5-16 [WriteFile], one system call at a time. *)
Inductive call_step (c : call) : files -> files -> call -> Prop :=
(* 6: O_WRONLY|O_CREATE|O_TRUNC *)
| st_open : forall fs, cPoint c = POpen -> call_step c fs (sset (cDest c) "" fs) (go c (PWrite ""))
(* 6-10: Close of the nil file only returns an error *)
| st_open_failed : forall fs, cPoint c = POpen -> call_step c fs fs (go c (PEnd (Some OpenFailed)))
(* 11: os.File.Write goes on after a short write *)
| st_write : forall fs w more rest old, cPoint c = PWrite w -> more <> "" -> cData c = w ++ more ++ rest ->
    sget (cDest c) fs = Some old ->
    call_step c fs (sset (cDest c) (write_at (String.length w) more old) fs) (go c (PWrite (w ++ more)))
(* 12-14 *)
| st_write_failed : forall fs w, cPoint c = PWrite w -> call_step c fs fs (go c (PEnd (Some WriteFailed)))
(* 15: the error of Close (7) is ignored *)
| st_written : forall fs w, cPoint c = PWrite w -> cData c = w -> call_step c fs fs (go c (PEnd None)).

(** Any number of calls at any time; a crash ends the process: all calls are gone, the files stay. *)
Record system := System { on_disk : files; calls : list call }.
Inductive sys_step : system -> system -> Prop :=
| sys_arrive : forall fs cs dest data, sys_step (System fs cs) (System fs (cs ++ [Call dest data POpen]))
| sys_call : forall fs fs' a c c' b, call_step c fs fs' c' ->
    sys_step (System fs (a ++ c :: b)) (System fs' (a ++ c' :: b)).
Inductive sys_run : system -> system -> Prop :=
| sys_refl : forall s, sys_run s s
| sys_more : forall s s' s'', sys_run s s' -> sys_step s' s'' -> sys_run s s''.
Definition crash (s : system) : system := System (on_disk s) [].
