(** * GridSpec: what the columns, rows and cells of a grid have to be *)
From Verif Require Import GoBase GoSpec AttrModel SchemaModel LinkbaseModel InstanceModel LabelModel
  FactModel GridModel.
Local Open Scope string_scope.

Section Columns.
  Variable lbl : string -> label_pack.
  Variable concept_of : string -> option concept.

  (** how a member element of a context is shown *)
  Definition shows_explicit (segment : bool) (e : explicit_member) (m : relevant_member) : Prop :=
    rmDimension m = Labelled (emDimHref e) (lbl (emDimHref e)) /\
    rmExplicit m = Some (Labelled (emMemHref e) (lbl (emMemHref e))) /\
    rmTypedDomain m = None /\ rmIsSegment m = segment.
  Definition shows_typed (t : typed_member) (kv : string * string) (m : relevant_member) : Prop :=
    rmDimension m = Labelled (tmDimHref t) (lbl (tmDimHref t)) /\
    rmTypedDomain m = Some (Labelled (fst kv) (lbl (fst kv))) /\
    rmTypedMember m = snd kv /\ rmExplicit m = None.
  Definition shows_typed_group (t : typed_member) (g : list relevant_member) : Prop :=
    exists kvs, Permutation kvs (tmMap t) /\ Forall2 (shows_typed t) kvs g.
  (** segment before scenario, explicit before typed, else document order *)
  Definition members_of (c : context) (ms : list relevant_member) : Prop :=
    exists se st ce ct,
      ms = (se ++ concat st ++ ce ++ concat ct)%list /\
      Forall2 (shows_explicit true) (dcExplicit (ctxSegment c)) se /\
      Forall2 shows_typed_group (dcTyped (ctxSegment c)) st /\
      Forall2 (shows_explicit false) (dcExplicit (ctxScenario c)) ce /\
      Forall2 shows_typed_group (dcTyped (ctxScenario c)) ct.
  Definition period_of (c : context) (s : string) : Prop :=
    (ctxStart c <> "" /\ ctxEnd c <> "" /\ s = ctxStart c ++ "/" ++ ctxEnd c) \/
    ((ctxStart c = "" \/ ctxEnd c = "") /\ s = ctxInstant c).
  (** the column of a context *)
  Definition column_for (c : context) (r : relevant_context) : Prop :=
    rcContextRef r = ctxID c /\
    (exists p, period_of c p /\ rcPeriod r = [("Unlabelled", p)]) /\
    members_of c (rcMembers r).

  (** the concept exists and is not abstract *)
  Definition reportable (href : string) : Prop :=
    exists k, concept_of href = Some k /\ cAbstract k = false.
  (** [c] is the context of a fact of the instance on one of the row concepts, and is about
      the subject *)
  Definition refers_to (i : instance) (f : fact) (c : context) : Prop :=
    first_such (fun c => ctxID c = fContextRef f) (iContexts i) c.
  Definition reported_in (i : instance) (subject : string) (hrefs : list string) (c : context) : Prop :=
    exists f, In f (iFacts i) /\ In (fHref f) hrefs /\ reportable (fHref f) /\
              refers_to i f c /\ subject = ctxScheme c ++ "/" ++ ctxIdentifier c.
  (** a fact on a row concept whose context the instance lacks *)
  Definition dangling (i : instance) (hrefs : list string) : Prop :=
    exists f, In f (iFacts i) /\ In (fHref f) hrefs /\ reportable (fHref f) /\
              forall c, In c (iContexts i) -> ctxID c <> fContextRef f.
End Columns.

(** ** Column order *)

(** the period shown above a column *)
Definition heading (r : relevant_context) : string :=
  match find (fun kv => String.eqb (fst kv) "Unlabelled") (rcPeriod r) with
  | Some kv => snd kv
  | None => ""
  end.
(** segment members first, then typed before explicit; then by domain and value, or member *)
Definition member_key (m : relevant_member) : nat * string * string :=
  match rmTypedDomain m, rmExplicit m with
  | Some d, _ => (if rmIsSegment m then 0 else 2, lbHref d, rmTypedMember m)
  | None, Some e => (if rmIsSegment m then 1 else 3, lbHref e, "")
  | None, None => (4, "", "")
  end.
Definition key_le (a b : nat * string * string) : Prop :=
  let '(n, s, t) := a in let '(n', s', t') := b in
  n < n' \/ n = n' /\ (slt s s' \/ s = s' /\ sle t t').
Definition first_le (a b : relevant_context) : Prop :=
  match rcMembers a, rcMembers b with
  | x :: _, y :: _ => key_le (member_key x) (member_key y)
  | _, _ => True
  end.
Definition column_le (a b : relevant_context) : Prop :=
  slt (heading a) (heading b) \/
  heading a = heading b /\
    (length (rcMembers a) < length (rcMembers b) \/
     length (rcMembers a) = length (rcMembers b) /\ first_le a b).
(** the sort cannot tell the two columns apart *)
Definition column_key (a : relevant_context) : string * nat * option (nat * string * string) :=
  (heading a, length (rcMembers a), option_map member_key (hd_error (rcMembers a))).
Definition column_key_dec (a b : string * nat * option (nat * string * string)) : {a = b} + {a <> b}.
Proof. repeat decide equality. Defined.
Definition one_kind (m : relevant_member) : Prop :=
  (exists d, rmTypedDomain m = Some d /\ rmExplicit m = None) \/
  (exists e, rmExplicit m = Some e /\ rmTypedDomain m = None).

(** ** Cells *)
Definition shape {A} (rows cols : nat) (g : list (list A)) : Prop :=
  length g = rows /\ forall r, In r g -> length r = cols.
Definition cell {A} (g : list (list A)) (i j : nat) (x : A) : Prop :=
  exists r, nth_error g i = Some r /\ nth_error r j = Some x.
Definition is_fact_of (href ref : string) (f : fact) : Prop := fHref f = href /\ fContextRef f = ref.

(** ** Outlines *)

(** siblings are listed in nondecreasing order, ties as in the tree *)
Definition by_order (a b : rarc) : bool := SFltb (ra_order a) (ra_order b).
Inductive preorder : nat -> rarc -> list (string * nat) -> Prop :=
| pre_node level r cs out :
    stably_sorted by_order (ra_children r) cs -> pre_forest level cs out -> preorder level r out
with pre_forest : nat -> list rarc -> list (string * nat) -> Prop :=
| pre_nil level : pre_forest level [] []
| pre_cons level c cs rest out :
    preorder (S level) c rest -> pre_forest level cs out ->
    pre_forest level (c :: cs) ((ra_locator c, level) :: rest ++ out).
(** the nodes of a tree *)
Inductive node_of : rarc -> rarc -> Prop :=
| node_self r : node_of r r
| node_below r c n : In c (ra_children r) -> node_of c n -> node_of r n.
Fixpoint locators_below (r : rarc) : list string :=
  match r with RArc _ _ cs => flat_map (fun c => ra_locator c :: locators_below c) cs end.
Definition orders_are_numbers (r : rarc) : Prop :=
  forall n, node_of r n -> ra_order n <> S754_nan.
(** the linkbase has a link for the role and declares the role *)
Definition has_network {A} (role : string) (lb : linkbase A) : Prop :=
  (exists rr, In rr (lbRoleRefs lb) /\ rrRoleURI rr = role) /\
  (exists k, In k (lbLinks lb) /\ lRole k = role).

(** ** Merged trees *)
Inductive path_in : list rarc -> list string -> Prop :=
| path_here f c : In c f -> path_in f [ra_locator c]
| path_down f c p : In c f -> path_in (ra_children c) p -> path_in f (ra_locator c :: p).
Definition distinct_siblings (r : rarc) : Prop :=
  forall n, node_of r n -> NoDup (map ra_locator (ra_children n)).
Definition nonempty_tree (r : rarc) : Prop := ra_locator r = "" /\ ra_children r <> [].

(** ** Dimension rows *)

(** the typed member trees name only dimensions and typed domains of the columns *)
Definition has_dimension (cols : list relevant_context) (href : string) : Prop :=
  exists c m, In c cols /\ In m (rcMembers c) /\ lbHref (rmDimension m) = href.
Definition has_typed_domain (cols : list relevant_context) (href : string) : Prop :=
  exists c m t, In c cols /\ In m (rcMembers c) /\ lbHref (rmDimension m) <> "" /\
                rmTypedDomain m = Some t /\ lbHref t = href.
Definition reported_tree (cols : list relevant_context) (r : rarc) : Prop :=
  nonempty_tree r /\
  forall d, In d (ra_children r) ->
    ra_locator d <> "" /\ has_dimension cols (ra_locator d) /\
    forall n, In n (ra_children d) -> forall k, node_of n k ->
      ra_locator k <> "" /\ has_typed_domain cols (ra_locator k).
