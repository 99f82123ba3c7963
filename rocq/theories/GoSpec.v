(** * GoSpec: vocabulary shared by the specifications.

    Nothing here refers to the model: these are the mathematical notions the
    property statements use. *)
From Coq Require Import String Ascii List Bool Permutation Sorted ZArith.
Import ListNotations.

(** [c] does not occur in [s]. *)
Fixpoint free_of (c : ascii) (s : string) : Prop :=
  match s with
  | EmptyString => True
  | String a r => a <> c /\ free_of c r
  end.

(** [x] is the first element of [l] satisfying [P]. *)
Definition first_such {A} (P : A -> Prop) (l : list A) (x : A) : Prop :=
  exists l1 l2, l = l1 ++ x :: l2 /\ P x /\ forall y, In y l1 -> ~ P y.

(** [x] is the last element of [l] satisfying [P]. *)
Definition last_such {A} (P : A -> Prop) (l : list A) (x : A) : Prop :=
  exists l1 l2, l = l1 ++ x :: l2 /\ P x /\ forall y, In y l2 -> ~ P y.

(** Strict bytewise lexicographic order on strings (Go's [<]). *)
Definition slt (a b : string) : Prop := String.compare a b = Lt.
Definition sle (a b : string) : Prop := a = b \/ slt a b.

(** [l'] is [l] stably sorted by the strict weak order [lt]: a rearrangement, in
    order, keeping the relative order of equivalent elements. *)
Definition stably_sorted {A} (lt : A -> A -> bool) (l l' : list A) : Prop :=
  Permutation l l' /\
  StronglySorted (fun a b => lt b a = false) l' /\
  forall x, In x l -> filter (fun y => negb (lt x y) && negb (lt y x)) l'
                    = filter (fun y => negb (lt x y) && negb (lt y x)) l.

(** [l'] keeps the first occurrence of each element of [l], in order. *)
Inductive dedup_of {A} : list A -> list A -> Prop :=
| dedup_nil : dedup_of [] []
| dedup_keep l l' x : dedup_of l l' -> ~ In x l -> dedup_of (l ++ [x]) (l' ++ [x])
| dedup_drop l l' x : dedup_of l l' -> In x l -> dedup_of (l ++ [x]) l'.

(** Elementwise image under a partial function, dropping failures. *)
Fixpoint filter_map {A B} (f : A -> option B) (l : list A) : list B :=
  match l with
  | [] => []
  | x :: t => match f x with Some y => y :: filter_map f t | None => filter_map f t end
  end.

Definition same_elements {A} (l l' : list A) : Prop := forall x, In x l <-> In x l'.

(** [l'] describes, in order, exactly those elements of [l] that have a
    description under [R]. *)
Inductive image_of {A B} (R : A -> B -> Prop) : list A -> list B -> Prop :=
| image_nil : image_of R [] []
| image_keep x y l l' : R x y -> image_of R l l' -> image_of R (x :: l) (y :: l')
| image_skip x l l' : (forall y, ~ R x y) -> image_of R l l' -> image_of R (x :: l) l'.
