(** * ColumnSpec: what a grid, read as JSON, shows of the dimension members of its columns and of
    the footnotes of its facts *)
From Coq Require Import String List.
From Verif Require Import GoBase GoSpec LinkbaseModel InstanceModel InstanceSpec FactModel FactSpec GridSpec.
From Verif Require Import XmlModel XmlSpec LoadSpec EndToEndSpec ResponseSpec ReportSpec.
Import ListNotations.
Local Open Scope string_scope.

(** no member [k] *)
Definition absent (v : value) (k : string) : Prop := forall y, ~ part v [k] y.

(** ** The dimension members of a context: those of its segment, then those of its scenario *)
Definition explicit_of (c : context) : list explicit_member := (dcExplicit (ctxSegment c) ++ dcExplicit (ctxScenario c))%list.
Definition typed_of (c : context) : list typed_member := (dcTyped (ctxSegment c) ++ dcTyped (ctxScenario c))%list.
(** a typed member of the context gives the typed domain of the dimension this text *)
Definition gives (c : context) (dim domain text : string) : Prop :=
  exists t, In t (typed_of c) /\ tmDimHref t = dim /\ In (domain, text) (tmMap t).
Definition names_dimension (c : context) (dim : string) : Prop :=
  (exists e, In e (explicit_of c) /\ emDimHref e = dim) \/ (exists domain text, gives c dim domain text).

(** ** Dimension rows: the dimension, and the typed domain if the row is for one *)
Definition dimension_shown (x : string * option string) (u : value) : Prop :=
  the_member u "Dimension" (href_shown (fst x)) /\
  match snd x with
  | None => absent u "TypedDomain"
  | Some t => the_member u "TypedDomain" (href_shown t)
  end.
(** the cell for a context *)
Definition member_shown (x : string * option string) (c : context) (u : value) : Prop :=
  match snd x with
  | None => absent u "TypedMember" /\
      ((exists e, first_such (fun e => emDimHref e = fst x) (explicit_of c) e /\
                  the_member u "ExplicitMember" (href_shown (emMemHref e))) \/
       ((forall e, In e (explicit_of c) -> emDimHref e <> fst x) /\ absent u "ExplicitMember"))
  | Some domain => absent u "ExplicitMember" /\
      ((exists text, gives c (fst x) domain text /\ (text <> "" -> the_member u "TypedMember" (shows text)) /\
                     (text = "" -> absent u "TypedMember")) \/
       ((forall text, ~ gives c (fst x) domain text) /\ absent u "TypedMember"))
  end.
(** a typed member with a single element: one typed domain below the dimension, and the tree built from it shows that *)
Definition simple (tree : list arc -> string -> rarc) (t : typed_member) : Prop :=
  exists domain text o o1 o2 o3, tmMap t = [(domain, text)] /\ tmArcs t = [TArc o (tmDimHref t) domain] /\
    tmDimHref t <> "" /\ domain <> "" /\
    tree [Arc "http://ecksbee.com/arc-role/typed-domain" o (tmDimHref t) domain] "http://ecksbee.com/arc-role/typed-domain" =
      RArc "" o1 [RArc (tmDimHref t) o2 [RArc domain o3 []]].
(** [v] is a grid with a column for each of these contexts *)
Definition members_shown (tree : list arc -> string -> rarc) (v : value) (cols : list context) : Prop :=
  exists rows,
    the_member v "VoidQuadrant" (list_of dimension_shown rows) /\
    the_member v "ContextualMemberGrid" (list_of (fun x => list_of (member_shown x) cols) rows) /\
    (** no row is about another dimension or typed domain than those of the columns *)
    (forall dim t, In (dim, t) rows -> dim <> "" /\ exists c, In c cols /\ names_dimension c dim) /\
    (forall dim t, In (dim, Some t) rows -> exists c dim' text, In c cols /\ gives c dim' t text) /\
    (** if the typed members of the columns are simple, no explicit member is missing, and if they are
        all of one dimension, no typed member is missing *)
    ((forall c t, In c cols -> In t (typed_of c) -> simple tree t) ->
     (forall c e, In c cols -> In e (explicit_of c) -> emDimHref e <> "" -> In (emDimHref e, None) rows) /\
     forall dim, (forall c t, In c cols -> In t (typed_of c) -> tmDimHref t = dim) ->
       forall c domain text, In c cols -> gives c dim domain text -> In (dim, Some domain) rows).

(** ** Footnotes *)

(** the footnote links of the instance, by title *)
Definition links_written (root : tree) (links : list footnote_link) : Prop :=
  exists ls, image_of footnote_link_at (kids root) ls /\ stably_sorted (fun a b => String.ltb (fkTitle a) (fkTitle b)) ls links.
Section Footnotes.
  Variable links : list footnote_link.
  Variable facts : list fact.
  (** an instance with these footnote links *)
  Definition holding : instance := Instance "" [] [] links [].
  (** the footnote is linked to the fact *)
  Definition annotates (fa : fact) (f : footnote) : Prop := linked [holding] (fID fa) f.
  (** Footnotes are labelled by their ids, which are unique; no locator is labelled like one. *)
  Record tidy : Prop := {
    td_ids : forall l f, In l links -> In f (fkFootnotes l) -> fnID f = fnLabel f /\ fnID f <> "" /\ free_of "#" (fnID f);
    td_once : NoDup (map fnID (flat_map fkFootnotes links));
    td_labels : forall l l' x f, In l links -> In l' links -> In x (fkLocs l) -> In f (fkFootnotes l') -> locLabel x <> fnLabel f;
    (** every link has arcs, and they lead from its locators to its footnotes *)
    td_some : forall l, In l links -> fkArcs l <> [];
    td_arcs : forall l a, In l links -> In a (fkArcs l) ->
      (exists x, In x (fkLocs l) /\ locLabel x = faFrom a) /\ (exists f, In f (fkFootnotes l) /\ fnLabel f = faTo a);
    (** the arcs for a fact are in one link and lead from one locator *)
    td_source : forall fa l l' a a', In fa facts -> In l links -> In l' links -> In a (fkArcs l) -> In a' (fkArcs l') ->
      label_refers holding (faFrom a) (fID fa) -> label_refers holding (faFrom a') (fID fa) -> l = l' /\ faFrom a = faFrom a' }.

  (** the footnotes of the fact at a row and column *)
  Definition noted (href : string) (c : context) (f : footnote) : Prop :=
    exists fa, first_such (is_fact_of href (ctxID c)) facts fa /\ annotates fa f.
  (** a cell: as many numbers as the fact has footnotes, each of them the number of an entry of the list *)
  Definition numbers_shown (size : nat) (href : string) (c : context) (u : value) : Prop :=
    exists ns fs, list_of count ns u /\ NoDup ns /\ (forall k, In k ns -> 1 <= k <= size) /\
      length ns = length fs /\ NoDup fs /\ forall f, In f fs <-> noted href c f.
  (** [v] is a grid with these rows and columns *)
  Definition notes_shown (v : value) (rows : list string) (cols : list context) : Prop :=
    ((rows = [] \/ cols = []) /\ the_member v "Footnotes" null /\ the_member v "FootnoteGrid" null) \/
    (rows <> [] /\ cols <> [] /\ exists fs,
       NoDup fs /\ (forall f, In f fs <-> exists href c, In href rows /\ In c cols /\ noted href c f) /\
       the_member v "Footnotes" (list_of (fun f => shows (fnHtml f)) fs) /\
       the_member v "FootnoteGrid" (list_of (fun href => list_of (numbers_shown (length fs) href) cols) rows)).
End Footnotes.
