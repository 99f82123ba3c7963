(** * SteadyCalcSpec: what stays the same of a calculation, and of footnotes, when they are computed again *)
From Coq Require Import String List Arith Permutation.
From Verif Require Import GoBase AttrModel SchemaModel LinkbaseModel InstanceModel LabelModel FactModel GridModel CalcModel CalcSpec
  ResponseSpec EndToEndSpec ReportSpec SteadySpec.
Import ListNotations.
Local Open Scope string_scope.

(** a sum with its terms and its table; the periods of its columns, as written *)
Definition sum_of (s : summation_item * list string) (u : value) : Prop :=
  the_member u "Href" (shows (siHref (fst s))) /\
  the_member u "Label" (labels (siLabel (fst s))) /\
  the_member u "BalanceType" (shows (siBalance (fst s))) /\
  the_member u "ContributingConcepts" (list_of contributing_value (siContributing (fst s))) /\
  table_of (siMembers (fst s)) (siVoid (fst s)) (siFacts (fst s)) (snd s) u /\
  notes_of (siFootnoteGrid (fst s)) (siFootnotes (fst s)) u.
(** the sums of an answer; none if the role has no calculation *)
Definition calculation_of (sums : option (list (summation_item * list string))) (v : value) : Prop :=
  the_member v "CGrid" (fun u => the_member u "SummationItems"
    (match sums with Some l => list_of sum_of l | None => null end)).
(** the same sum, but its cells may be in other languages, and in every language of both they say the same; and its footnotes
    may be in another order *)
Definition same_sum (s s' : summation_item * list string) : Prop :=
  siHref (fst s) = siHref (fst s') /\ siLabel (fst s) = siLabel (fst s') /\ siBalance (fst s) = siBalance (fst s') /\
  siContributing (fst s) = siContributing (fst s') /\ siMembers (fst s) = siMembers (fst s') /\ siVoid (fst s) = siVoid (fst s') /\
  snd s = snd s' /\ same_cells (siFacts (fst s)) (siFacts (fst s')) /\
  same_notes (siFootnoteGrid (fst s)) (siFootnoteGrid (fst s')) (siFootnotes (fst s)) (siFootnotes (fst s')).
Definition same_sums (l l' : option (list (summation_item * list string))) : Prop :=
  match l, l' with
  | Some l, Some l' => Forall2 same_sum l l'
  | None, None => True
  | _, _ => False
  end.

(** the footnotes of a presentation *)
Definition presentation_notes (grid : list (list (list nat))) (notes : list string) (v : value) : Prop :=
  the_member v "PGrid" (notes_of grid notes).
(** the footnotes of each root of the dimensions *)
Definition dimension_notes (roots : list (list (list (list nat)) * list string)) (v : value) : Prop :=
  the_member v "DGrid" (fun u => the_member u "RootDomains" (list_of (fun n => notes_of (fst n) (snd n)) roots)).
