(** * InertSpec: text that means the same in JSON, in a page and in a script *)
From Coq Require Import String List NArith.
From Verif Require Import JsonSpec.
Import ListNotations.
Local Open Scope string_scope.

(** the characters that end or begin something elsewhere: less than, greater than, ampersand, and the two line separators *)
Definition markup : list N := [60; 62; 38; 8232; 8233]%N.
(** Unicode characters in UTF-8, no control characters and none of those *)
Inductive inert : string -> Prop :=
| inert_nil : inert ""
| inert_cons n s : scalar n -> (32 <= n)%N -> ~ In n markup -> inert s -> inert (utf8 n ++ s).
