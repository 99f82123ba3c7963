(** * ChangeSpec: what a server shows of a folder whose files change *)
From Coq Require Import Strings.String Lists.List.
From Verif Require Import GoBase CacheModel CacheSpec.
Import ListNotations.
Local Open Scope string_scope.

(** the folder a request is about *)
Definition about (id : string) (q : request) : Prop :=
  match q with RCatalog i | RRender i _ | RFact i _ _ => i = id | _ => False end.

Section Change.
  Context {F H S N U : Type}.
  Variable sv : services F H S N U.

  (** what the request asks for, taken from the folder as it was loaded *)
  Definition told (h : H) (q : request) (a : res (option string)) : Prop :=
    match q with
    | RCatalog _ => catalog sv h a
    | RRender _ slug => document_or_renderable sv slug h a
    | RFact _ name ref => expressable sv name ref h a
    | _ => False
    end.
  (** [r] is that, or the empty page that is shown after an error (see C57) *)
  Definition shown (h : H) (q : request) (r : res (value H S N U)) : Prop :=
    exists a, told h q a /\ (r = sent a \/ exists m, a = Err m /\ r = Ok (VBytes None)).

  (** the server has been asked [qs] about folder [id], whatever else it has
      been asked *)
  Definition asked_about (s : state H S N U) (id : string) (qs : list request) : Prop :=
    exists keep, (forall q, keep q = true <-> about id q) /\ filter keep (requests s) = qs.
End Change.
