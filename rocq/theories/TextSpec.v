(** * TextSpec: what a text block looks like, from its HTML *)
From Coq Require Import String List ZArith.
From Verif Require Import GoSpec InstanceSpec FactModel FactSpec.
Import ListNotations.
Local Open Scope string_scope.

(** HTML: text, elements with what is inside them, and tags that stand for themselves ([<br>], [<img/>], comments) *)
Inductive html :=
| Text (text : string)
| Lone (tag : html_token)
| Element (name : string) (attrs : list (string * string)) (inside : list html).
(** as it is written *)
Fixpoint tokens_of (x : html) : list html_token :=
  match x with
  | Text d => [HText d]
  | Lone t => [t]
  | Element n attrs inside => (HStart n attrs :: flat_map tokens_of inside ++ [HEnd n])%list
  end.
Definition tokens (l : list html) : list html_token := flat_map tokens_of l.

Definition cell (name : string) : Prop := name = "th" \/ name = "td".
(** paragraphs, headings and divisions *)
Definition paragraph (name : string) : Prop := In name ["div"; "p"; "h1"; "h2"; "h3"; "h4"; "h5"; "h6"].
(** tags that may stand alone: all but those of tables and cells *)
Definition may_be_lone (t : html_token) : Prop :=
  match t with
  | HStart n _ | HSelf n _ | HEnd n => n <> "table" /\ ~ cell n
  | HText _ => False
  | HOther => True
  end.

(** [opening in_table name s]: the tag that opens [name] is shown as [s]. Paragraphs start after a blank line, but not in
    a table; a row is a row; nothing is shown of any other tag. *)
Inductive opening (in_table : bool) (name : string) : string -> Prop :=
| op_row : name = "tr" -> opening in_table name "<tr>"
| op_paragraph : paragraph name -> in_table = false -> opening in_table name "<br /><br />"
| op_other : name <> "tr" -> ~ (paragraph name /\ in_table = false) -> opening in_table name "".
Inductive closing (name : string) : string -> Prop :=
| cs_row : name = "tr" -> closing name "</tr>"
| cs_other : name <> "tr" -> closing name "".
Inductive lone (in_table : bool) : html_token -> string -> Prop :=
| ln_start n attrs s : opening in_table n s -> lone in_table (HStart n attrs) s
| ln_self n attrs s : opening in_table n s -> lone in_table (HSelf n attrs) s
| ln_end n s : closing n s -> lone in_table (HEnd n) s
| ln_other : lone in_table HOther "".
(** [n] times *)
Inductive copies (s : string) : Z -> string -> Prop :=
| cp_none : copies s 0 ""
| cp_more n r : copies s n r -> copies s (n + 1) (s ++ r).

(** [drawn in_table l s]: the HTML [l] is shown as [s]. A table is a table, what is in it is in a table; a cell that spans [n]
    columns is [n] cells, one in the other, around what is in it. *)
Inductive drawn : bool -> list html -> string -> Prop :=
| dr_nil b : drawn b [] ""
| dr_blank b d l r : trimmed_text d "" -> drawn b l r -> drawn b (Text d :: l) r
| dr_text b d t l r : trimmed_text d t -> t <> "" -> drawn b l r -> drawn b (Text d :: l) (t ++ " " ++ r)
| dr_lone b t s l r : lone b t s -> drawn b l r -> drawn b (Lone t :: l) (s ++ r)
| dr_table b attrs inside s l r : drawn true inside s -> drawn b l r ->
    drawn b (Element "table" attrs inside :: l) ("<table>" ++ s ++ "</table>" ++ r)
| dr_cell b k attrs n o inside s c l r : cell k -> spans attrs n -> copies ("<" ++ k ++ ">") n o -> drawn b inside s -> copies ("</" ++ k ++ ">") n c ->
    drawn b l r -> drawn b (Element k attrs inside :: l) (o ++ s ++ c ++ r)
| dr_element b n attrs o inside s c l r : n <> "table" -> ~ cell n -> opening b n o -> drawn b inside s -> closing n c -> drawn b l r ->
    drawn b (Element n attrs inside :: l) (o ++ s ++ c ++ r).

(** HTML with lone tags where they may be *)
Inductive well_formed : list html -> Prop :=
| wf_nil : well_formed []
| wf_text d l : well_formed l -> well_formed (Text d :: l)
| wf_lone t l : may_be_lone t -> well_formed l -> well_formed (Lone t :: l)
| wf_element n attrs inside l : well_formed inside -> well_formed l -> well_formed (Element n attrs inside :: l).
(** ... and no cell of one column inside a cell of the same kind that spans several; [wide] are the kinds of those around it *)
Inductive tidy (wide : list string) : list html -> Prop :=
| td_nil : tidy wide []
| td_text d l : tidy wide l -> tidy wide (Text d :: l)
| td_lone t l : may_be_lone t -> tidy wide l -> tidy wide (Lone t :: l)
| td_one k attrs inside l : cell k -> spans attrs 1 -> ~ In k wide -> tidy wide inside -> tidy wide l -> tidy wide (Element k attrs inside :: l)
| td_wide k attrs n inside l : cell k -> spans attrs n -> (1 < n)%Z -> tidy (k :: wide) inside -> tidy wide l -> tidy wide (Element k attrs inside :: l)
| td_element n attrs inside l : ~ cell n -> tidy wide inside -> tidy wide l -> tidy wide (Element n attrs inside :: l).
