(** * FactSpec: rendered text blocks and facts *)
From Coq Require Import String Ascii List ZArith.
From Verif Require Import GoSpec AttrModel SchemaModel InstanceModel InstanceSpec FactModel.
Import ListNotations.
Local Open Scope string_scope.

(** ** Reading HTML back *)
(** the tags of an HTML text (what is between '<' and the next '>'), and the text outside them *)
Fixpoint tags_of (s : string) : list string :=
  match s with
  | "" => []
  | String c r => if Ascii.eqb c "<" then in_tag "" r else tags_of r
  end
with in_tag (acc s : string) : list string :=
  match s with
  | "" => []
  | String c r => if Ascii.eqb c ">" then acc :: tags_of r else in_tag (acc ++ String c "") r
  end.
Fixpoint text_of (s : string) : string :=
  match s with
  | "" => ""
  | String c r => if Ascii.eqb c "<" then after_tag r else String c (text_of r)
  end
with after_tag (s : string) : string :=
  match s with
  | "" => ""
  | String c r => if Ascii.eqb c ">" then text_of r else after_tag r
  end.

(** properly nested opening and closing elements in a list that may contain others *)
Inductive nested {X} (opens closes : X -> Prop) : list X -> Prop :=
| nest_nil : nested opens closes []
| nest_other x l : ~ opens x -> ~ closes x -> nested opens closes l -> nested opens closes (x :: l)
| nest_pair x l y l' : opens x -> closes y -> nested opens closes l -> nested opens closes l' ->
    nested opens closes (x :: l ++ y :: l').

(** number of elements with a property *)
Inductive number_of {X} (P : X -> Prop) : list X -> Z -> Prop :=
| no_nil : number_of P [] 0
| no_yes x l n : P x -> number_of P l n -> number_of P (x :: l) (n + 1)
| no_not x l n : ~ P x -> number_of P l n -> number_of P (x :: l) n.

(** ** Text blocks *)
Definition opens_cell (k : string) (t : html_token) : Prop :=
  exists attrs, t = HStart k attrs \/ t = HSelf k attrs.
Definition closes_cell (k : string) (t : html_token) : Prop := t = HEnd k.
(** the columns a cell spans *)
Definition spans (attrs : list (string * string)) (n : Z) : Prop :=
  (exists v z, first_such (fun a => fst a = "colspan") attrs ("colspan", v) /\ int_literal v z /\ n = Z.max 1 z) \/
  ((forall v z, first_such (fun a => fst a = "colspan") attrs ("colspan", v) -> ~ int_literal v z) /\ n = 1%Z).
(** the columns of all the cells *)
Inductive columns (k : string) : list html_token -> Z -> Prop :=
| co_nil : columns k [] 0
| co_cell t attrs l n m : t = HStart k attrs \/ t = HSelf k attrs -> spans attrs n -> columns k l m ->
    columns k (t :: l) (n + m)
| co_other t l m : ~ opens_cell k t -> columns k l m -> columns k (t :: l) m.

(** the text tokens, without markup characters *)
Definition plain (ks : list html_token) : Prop := forall d, In (HText d) ks -> free_of "<" d.

(** the text shown for a text block *)
Inductive text_shown : list html_token -> string -> Prop :=
| tx_nil : text_shown [] ""
| tx_blank d l s : trimmed_text d "" -> text_shown l s -> text_shown (HText d :: l) s
| tx_text d t l s : trimmed_text d t -> t <> "" -> text_shown l s -> text_shown (HText d :: l) (t ++ " " ++ s)
| tx_other k l s : (forall d, k <> HText d) -> text_shown l s -> text_shown (k :: l) s.

Definition table_markup : list string :=
  ["table"; "/table"; "tr"; "/tr"; "th"; "/th"; "td"; "/td"; "br /"].

(** ** Facts *)
Definition percentage (c : concept) : Prop :=
  nspace (cType c) = "http://www.xbrl.org/dtr/type/numeric" /\ nlocal (cType c) = "percentItemType".
(** the digits of a number, as written with group separator [g]: a percentage is scaled first *)
Definition written (e : renv) (f : fact) (c : concept) (g : ascii) (h co t : string) : Prop :=
  (percentage c /\ exists v, re_percent e (fXMLInner f) = Some v /\ re_digits e (fPrecision f) v g = Some (h, co, t)) \/
  (~ percentage c /\ re_digits e (fPrecision f) (fXMLInner f) g = Some (h, co, t)).
(** the symbol of a unit, or else its name *)
Inductive symbol_or_name (m : measurement) : string -> Prop :=
| sn_symbol : mSymbol m <> "" -> symbol_or_name m (mSymbol m)
| sn_name : mSymbol m = "" -> symbol_or_name m (mUnitName m).
(** what the unit adds before and after the digits *)
Inductive unit_before : option measurement -> string -> Prop :=
| ub_none : unit_before None ""
| ub_symbol m : mSymbol m <> "" -> unit_before (Some m) (mSymbol m ++ " ")
| ub_name m : mSymbol m = "" -> unit_before (Some m) "".
Inductive unit_after (c : concept) : option measurement -> option measurement -> string -> Prop :=
| ua_none d : unit_after c None d ""
| ua_some m d own per :
    ((mSymbol m = "" /\ ~ percentage c /\ own = mUnitName m) \/ ((mSymbol m <> "" \/ percentage c) /\ own = "")) ->
    ((d = None /\ per = "") \/ exists dm s, d = Some dm /\ symbol_or_name dm s /\ per = "/" ++ s) ->
    unit_after c (Some m) d (" " ++ own ++ per).
(** how a fact is shown, with group separator [g] *)
Inductive shown_fact (g : ascii) (e : renv) (f : fact) : fact_expression -> Prop :=
| sf_unknown : re_concept e (fHref f) = None -> shown_fact g e f (FactExpression "" "error" "" "")
| sf_block c html : re_concept e (fHref f) = Some c -> nlocal (cType c) = "textBlockItemType" ->
    text_block (re_html e (fXMLInner f)) = GoBase.Ok html -> shown_fact g e f (FactExpression "" "" "" html)
| sf_text c : re_concept e (fHref f) = Some c -> nlocal (cType c) <> "textBlockItemType" ->
    fPrecision f = (- 2147483647)%Z \/ (forall h co t, ~ written e f c g h co t) ->
    shown_fact g e f (FactExpression "" (fXMLInner f) "" "")
| sf_number c h co t b a :
    re_concept e (fHref f) = Some c -> nlocal (cType c) <> "textBlockItemType" ->
    fPrecision f <> (- 2147483647)%Z -> written e f c g h co t ->
    unit_before (fst (re_measurement e (fUnitRef f))) b ->
    unit_after c (fst (re_measurement e (fUnitRef f))) (snd (re_measurement e (fUnitRef f))) a ->
    forall sign, (percentage c /\ sign = "%") \/ (~ percentage c /\ sign = "") ->
    shown_fact g e f (FactExpression (b ++ h) co (t ++ sign ++ a) "").
