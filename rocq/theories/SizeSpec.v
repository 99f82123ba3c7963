(** * SizeSpec: how long a text block is *)
From Coq Require Import String List ZArith.
From Verif Require Import GoSpec FactModel FactSpec.
Import ListNotations.
Local Open Scope string_scope.

(** the shortest way to write a token *)
Definition written (t : html_token) : string :=
  match t with
  | HStart n attrs | HSelf n attrs =>
      "<" ++ n ++ fold_right (fun a s => " " ++ fst a ++ "=" ++ snd a ++ s) "" attrs ++ ">"
  | HEnd n => "</" ++ n ++ ">"
  | HText d => d
  | HOther => ""
  end.
Definition length_of (s : string) : Z := Z.of_nat (String.length s).
Definition size (ks : list html_token) : Z := fold_right (fun t n => length_of (written t) + n)%Z 0%Z ks.

(** no cell spans more than [n] columns *)
Definition no_wider_than (n : Z) (ks : list html_token) : Prop :=
  forall t name attrs m, In t ks -> t = HStart name attrs \/ t = HSelf name attrs -> spans attrs m -> (m <= n)%Z.
