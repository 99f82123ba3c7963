(** * DocNameSpec: how a catalog says whether a report is an inline document *)
From Coq Require Import String.
From Verif Require Import GoBase DiscoverSpec ResponseSpec EndToEndSpec ReportSpec.
Local Open Scope string_scope.

(** [v] names the entry file of the report if it is a document, and nothing else *)
Definition names_its_document (name : string) (v : value) : Prop :=
  (inline_name name -> the_member v "DocumentName" (shows name)) /\
  (~ inline_name name -> the_member v "DocumentName" (shows "")).
