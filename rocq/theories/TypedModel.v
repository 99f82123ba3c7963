(** * TypedModel: the loop that reads a typed member (pkg/hydratables/instance.go:332-407), call by call *)
From Verif Require Import GoBase AttrModel SchemaModel InstanceModel.
Local Open Scope string_scope.

(** The content of an element as encoding/xml sees it: what its tokens are made of, and XML declarations
    ([<?xml version="1.0" encoding="..."?>]; [""]: no encoding is named), which encoding/xml (Go 1.22, the version in
    Dockerfile:1 and go.mod) reads wherever they stand. *)
Inductive markup := Markup (t : token) | Declaration (encoding : string).

(** strings.EqualFold(encoding, "utf-8"), the test [Decoder.rawToken] makes *)
Definition fold_byte (c : ascii) : ascii :=
  let n := nat_of_ascii c in if (65 <=? n)%nat && (n <=? 90)%nat then ascii_of_nat (n + 32) else c.
Fixpoint fold_case (s : string) : string :=
  match s with "" => "" | String c r => String (fold_byte c) (fold_case r) end.
Definition is_utf8 (encoding : string) : bool := String.eqb encoding "" || String.eqb (fold_case encoding) "utf-8".

(** A call of [Decoder.Token]: a token, io.EOF, or another error and no token *)
Inductive reading := Read (t : token) | EOF | Failed.

(** instance.go:334, 347: the (n+1)st call for a decoder whose CharsetReader is nil, as the one of line 334.
    A declaration of another encoding than UTF-8 is an error then; a decoder that has failed fails again
    ([Decoder.err]). *)
Fixpoint token_call (content : list markup) (n : nat) : reading :=
  match content with
  | [] => EOF
  | Declaration enc :: rest =>
      if is_utf8 enc then match n with O => Read TokOther | S k => token_call rest k end else Failed
  | Markup t :: rest => match n with O => Read t | S k => token_call rest k end
  end.

(** Where [hydrateTypedMembers] is: before its (n+1)st call of Token, or back with a result *)
Inductive progress :=
| Loop (n : nat) (s : tm_state)
| Returned (r : res (list (string * string) * list tarc)).

(** [k] times *)
Fixpoint turns {A} (k : nat) (f : A -> A) (x : A) : A := match k with O => x | S j => f (turns j f x) end.

Section Run.
  Variables (q : qenv) (attrs : list xattr) (dimensionHref : string) (content : list markup).

  (** instance.go:346-405: once around the loop. Line 348 leaves it at io.EOF only: after another error the token is
      nil, no case of the switch applies, and the loop goes on. *)
  Definition around (dimension : concept) (p : progress) : progress :=
    match p with
    | Returned r => Returned r
    | Loop n s =>
        match token_call content n with
        | EOF => Returned (Ok (ts_map s, ts_arcs s))
        | Failed => Loop (S n) s
        | Read t =>
            match tm_token q attrs dimension t s with
            | TMNext s' => Loop (S n) s'
            | TMNil => Returned (Ok ([], []))
            | TMPanic => Returned Panic
            end
        end
    end.

  (** instance.go:332-407 [hydrateTypedMembers] after [k] times around the loop *)
  Definition after_rounds (k : nat) : progress :=
    match hash_query (q_namespaces q) q dimensionHref with
    | Err _ => Returned (Ok ([], []))
    | Panic => Returned Panic
    | Ok (_, dimension) => turns k (around dimension) (Loop 0 (TMState [] [] 0 [] (Some dimension) dimensionHref))
    end.
End Run.
