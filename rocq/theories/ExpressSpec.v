(** * ExpressSpec: what the answer to a request for one fact has to be *)
From Verif Require Import GoBase GoSpec AttrModel SchemaModel InstanceModel LabelModel FactModel GridModel
  GridSpec PeriodModel PeriodSpec ExpressModel.
Local Open Scope string_scope.

(** the hydratable has one instance *)
Definition one_instance (e : xenv) (i : instance) : Prop :=
  xe_first e = [i] /\ xe_facts e = [i] /\ xe_contexts e = [i] /\ xe_notes1 e = [i] /\ xe_notes2 e = [i].
(** every loop over the map of instances sees the same instances *)
Definition same_instances (e : xenv) : Prop :=
  Permutation (xe_first e) (xe_facts e) /\ Permutation (xe_facts e) (xe_contexts e).

(** the ISO text of the period of a context *)
Definition iso_period (c : context) : string :=
  match ctxStart c, ctxEnd c with
  | "", _ | _, "" => ctxInstant c
  | s, e => s ++ "/" ++ e
  end.
(** [l] is a language of a label of the pack *)
Definition has_language (labels : label_pack) (l : string) : Prop :=
  exists role texts text, In (role, texts) labels /\ In (l, text) texts.
(** the period in the languages of the labels: the ISO text, its abbreviation, and a sentence in
    English or Spanish *)
Definition shows_period (es : date -> option string) (labels : label_pack) (c : context) (p : language_pack) : Prop :=
  forall lang text, In (lang, text) p <->
    (lang = "Unlabelled" /\ text = iso_period c) \/
    (lang = "Truncated" /\ iso_period c <> "" /\ text = iso_period c) \/
    (lang = "en - english" /\ iso_period c <> "" /\ has_language labels lang /\ shown_english (iso_period c) text) \/
    (lang = "es - español" /\ iso_period c <> "" /\ has_language labels lang /\
       shown_spanish (fun s t => exists d, is_date s d /\ es d = Some t) (iso_period c) text).

(** the explicit members of a context *)
Definition explicit_of (c : context) : list explicit_member :=
  (dcExplicit (ctxSegment c) ++ dcExplicit (ctxScenario c))%list.
Definition typed_of (c : context) : list typed_member :=
  (dcTyped (ctxSegment c) ++ dcTyped (ctxScenario c))%list.
(** the dimension has one member in the context *)
Definition sole_member (c : context) (m : explicit_member) : Prop :=
  count_occ string_dec (map emDimHref (explicit_of c)) (emDimHref m) = 1 /\
  forall t, In t (typed_of c) -> tmDimHref t <> emDimHref m.
(** every explicit dimension of the context has a row with the member and its labels *)
Definition shows_dimensions (lbl : string -> label_pack) (c : context) (x : expressable) : Prop :=
  forall m, In m (explicit_of c) -> emDimHref m <> "" -> sole_member c m ->
    exists i v, nth_error (exVoid x) i = Some v /\
      vcDimension v = Labelled (emDimHref m) (lbl (emDimHref m)) /\ vcTypedDomain v = None /\
      nth_error (exMembers x) i = Some [MemberCell (Some (Labelled (emMemHref m) (lbl (emMemHref m)))) ""].
(** every row belongs to a dimension of the context *)
Definition only_dimensions (c : context) (x : expressable) : Prop :=
  forall v, In v (exVoid x) ->
    (exists m, In m (explicit_of c) /\ emDimHref m = lbHref (vcDimension v)) \/
    (exists t, In t (typed_of c) /\ tmDimHref t = lbHref (vcDimension v)).
