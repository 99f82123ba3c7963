(** Folders and calls of NewFolder, as seen from outside. *)
From Coq Require Import Strings.String Lists.List.
From Verif Require Import GoBase GoSpec UnderscoreModel.
Import ListNotations.
Open Scope string_scope.

(** A call of NewFolder(key, u) has returned *)
Definition returned (s : system) (i : nat) (key : string) (u : underscore) (o : outcome) : Prop :=
  nth_error (calls s) i = Some (Call key u (PEnd o)).

(** It has created the folder [id] *)
Definition created (s : system) (i : nat) (key : string) (u : underscore) (id : string) : Prop :=
  returned s i key u (id, None).

(** The directory [id], and what its file "_" holds *)
Definition holds (fs : folders) (id : string) (content : option string) : Prop := In (id, content) fs.
Definition present (fs : folders) (id : string) : Prop := exists content, holds fs id content.

(** The directories of a file system have different names *)
Definition file_system (fs : folders) : Prop := NoDup (map fst fs).

(** Nothing running *)
Definition idle (s : system) : Prop := calls s = [].
