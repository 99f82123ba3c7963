(** * CalcSpec: what the summation items of a calculation grid have to be *)
From Verif Require Import GoBase GoSpec AttrModel SchemaModel LinkbaseModel InstanceModel LabelModel LabelSpec
  PeriodSpec GridModel GridSpec CalcModel.
Local Open Scope string_scope.

(** the link shown for a role: the first link with that role in the first linkbase that has a
    network for it *)
Definition shown_link {A} (role : string) (lbs : list (linkbase A)) (lb : linkbase A) (k : link A) : Prop :=
  first_such (has_network role) lbs lb /\ first_such (fun k => lRole k = role) (lbLinks lb) k.
(** the summation-item arcs of a link with the given source concept *)
Definition is_summation (a : carc) : Prop :=
  caArcrole a = "http://www.xbrl.org/2003/arcrole/summation-item".
Definition arc_from (role : string) (lb : linkbase carc) (source : string) (a : carc) : Prop :=
  is_summation a /\ locates lb role (caFrom a) source.
(** [l'] lists the elements of [l] with [P], in order *)
Inductive those {A} (P : A -> Prop) : list A -> list A -> Prop :=
| those_nil : those P [] []
| those_in x l l' : P x -> those P l l' -> those P (x :: l) (x :: l')
| those_out x l l' : ~ P x -> those P l l' -> those P (x :: l) l'.
Definition by_arc_order (a b : carc) : bool := SFltb (caOrder a) (caOrder b).

(** ** Weights *)

Definition is_negative (w : f64) : Prop :=
  w = S754_infinity true \/ exists m e, w = S754_finite true m e.
(** [n] tenths is the multiple of a tenth nearest to m * 2^e = x / d; of two it is the even one *)
Definition nearest_tenth (m e n : Z) : Prop :=
  let x := (m * 2 ^ Z.max 0 e)%Z in
  let d := (2 ^ Z.max 0 (- e))%Z in
  (2 * Z.abs (10 * x - n * d) <= d)%Z /\ ((2 * Z.abs (10 * x - n * d) = d)%Z -> Z.Even n).
(** the text of the absolute value of a weight with one decimal *)
Definition scale_text (w : f64) (s : string) : Prop :=
  match w with
  | S754_nan => s = "NaN"
  | S754_infinity _ => s = "+Inf"
  | S754_zero _ => s = "0.0"
  | S754_finite _ m e =>
      exists n units tenth, nearest_tenth (Zpos m) e n /\ s = units ++ "." ++ tenth /\
        decimal units (n / 10) /\ decimal tenth (n mod 10)
  end.
Definition sign_text (w : f64) (s : string) : Prop :=
  (is_negative w /\ s = "-") \/ (~ is_negative w /\ s = "+").

Section Items.
  Variable lbl : string -> label_pack.
  Variable concept_of : string -> option concept.
  Variable role : string.
  Variable lb : linkbase carc.
  Variable k : link carc.

  Definition is_source (href : string) : Prop := exists a, In a (lArcs k) /\ arc_from role lb href a.
  (** how an arc is shown; an arc whose target is not found is not shown *)
  Definition shows_arc (a : carc) (c : contributing) : Prop :=
    locates lb role (caTo a) (ccHref c) /\
    (exists t, concept_of (ccHref c) = Some t /\ ccBalance c = cBalance t) /\
    ccLabel c = lbl (ccHref c) /\
    sign_text (caWeight a) (ccSign c) /\ scale_text (caWeight a) (ccScale c) /\
    (ccIsSummation c = true <-> is_source (ccHref c)).
  Definition lists_its_arcs (si : summation_item) : Prop :=
    exists arcs sorted,
      those (arc_from role lb (siHref si)) (lArcs k) arcs /\
      stably_sorted by_arc_order arcs sorted /\
      image_of shows_arc sorted (siContributing si).
  Definition shows_source (si : summation_item) : Prop :=
    is_source (siHref si) /\ siLabel si = lbl (siHref si) /\
    exists s, concept_of (siHref si) = Some s /\ siBalance si = cBalance s.
End Items.

(** everything of a summation item but its facts *)
Definition same_item (a b : summation_item) : Prop :=
  siHref a = siHref b /\ siLabel a = siLabel b /\ siBalance a = siBalance b /\ siPeriods a = siPeriods b /\
  siMembers a = siMembers b /\ siVoid a = siVoid b /\ siContributing a = siContributing b /\
  siFootnoteGrid a = siFootnoteGrid b /\ siFootnotes a = siFootnotes b.
(** two cells agree on every language they share *)
Definition agree (a b : list (string * FactModel.fact_expression)) : Prop :=
  forall lang x y, In (lang, x) a -> In (lang, y) b -> x = y.
Definition same_cells (a b : list (list (list (string * FactModel.fact_expression)))) : Prop :=
  Forall2 (Forall2 agree) a b.

(** ** The labels a calculation grid uses *)
Definition labelled_href (role : string) (lb : linkbase carc) (k : link carc) (insts : list instance) (h : string) : Prop :=
  (exists a, In a (lArcs k) /\ (locates lb role (caFrom a) h \/ locates lb role (caTo a) h)) \/
  (exists i c d, In i insts /\ In c (iContexts i) /\ (d = ctxSegment c \/ d = ctxScenario c) /\
     ((exists e, In e (dcExplicit d) /\ (h = emDimHref e \/ h = emMemHref e)) \/
      (exists t, In t (dcTyped d) /\ h = tmDimHref t))).
(** every label has the same roles, each in the same languages *)
Definition alike (p q : list (string * list (string * string))) : Prop :=
  (forall role, has_role role p <-> has_role role q) /\
  (forall role lang, (exists t, holds p role lang t) <-> (exists t, holds q role lang t)).
