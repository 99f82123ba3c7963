(** * ErrorSpec: answers that are no pages *)
From Coq Require Import String List.
From Verif Require Import GoBase WebModel.
Import ListNotations.
Local Open Scope string_scope.

(** the client is told one type, that of plain text, and not to guess another *)
Definition sent_as_text (p : response) : Prop :=
  (forall t, In ("Content-Type", t) (header p) <-> t = "text/plain; charset=utf-8") /\
  In ("X-Content-Type-Options", "nosniff") (header p).
(** a redirection without a text *)
Definition leads_on (p : response) : Prop := status p = 301 /\ body p = "" /\ exists l, header p = [("Location", l)].
