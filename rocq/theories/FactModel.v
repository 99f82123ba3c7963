(** * FactModel: pkg/renderables/{textBlock,fact,english,spanish}.go: rendering one fact *)
From Verif Require Import GoBase AttrModel SchemaModel InstanceModel LabelModel.
Local Open Scope string_scope.

(** ** textBlock.go *)

(** golang.org/x/net/html tokens: the kind, the (lower case) tag name and the attributes as
    key/value pairs; the text of a text token is already unescaped. Comments and doctypes
    are [HOther]. *)
Inductive html_token :=
| HStart (name : string) (attrs : list (string * string))
| HSelf (name : string) (attrs : list (string * string))
| HEnd (name : string)
| HText (data : string)
| HOther.

(** textBlock.go:59-62: tokenized, disableBr, thcolspans, tdcolspans (top first) *)
Record tb_state := TB { tbOut : string; tbBr : Z; tbTh : list Z; tbTd : list Z }.
Definition emit (s : string) (t : tb_state) : tb_state := TB (tbOut t ++ s) (tbBr t) (tbTh t) (tbTd t).

(** [for i := 0; i < n; i++] *)
Fixpoint times {A} (n : nat) (f : A -> res A) (a : A) : res A :=
  match n with O => Ok a | S k => do b <- f a; times k f b end.

(** textBlock.go:15-22 [findHtmlAttr], 24-34 [colSpanHelper]. Simplification: [colspan - 1] does not wrap around, as Go's
    does for the one value -9223372036854775808. *)
Definition col_span_helper (attrs : list (string * string)) (cb : Z -> tb_state -> res tb_state) (t : tb_state)
  : res tb_state :=
  match sget "colspan" attrs with
  | None => Ok t
  | Some v => match atoi v with
              | None => Ok t
              | Some colspan => times (Z.to_nat (colspan - 1)) (cb colspan) t
              end
  end.
(** textBlock.go:36-43 [colSpan2Helper], with the same simplification *)
Definition col_span2_helper (stack : list Z) (cb : Z -> tb_state -> res tb_state) (t : tb_state) : res tb_state :=
  match stack with
  | [] => Ok t
  | colspan :: _ => times (Z.to_nat (colspan - 1)) (cb colspan) t
  end.
(** textBlock.go:82-83, 88-89 *)
Definition push_th (colspan : Z) (t : tb_state) : res tb_state :=
  Ok (emit "<th>" (TB (tbOut t) (tbBr t) (colspan :: tbTh t) (tbTd t))).
Definition push_td (colspan : Z) (t : tb_state) : res tb_state :=
  Ok (emit "<td>" (TB (tbOut t) (tbBr t) (tbTh t) (colspan :: tbTd t))).
(** textBlock.go:125-126, 131-132: slicing an empty stack panics *)
Definition pop_th (colspan : Z) (t : tb_state) : res tb_state :=
  match tbTh t with [] => Panic | _ :: r => Ok (emit "</th>" (TB (tbOut t) (tbBr t) r (tbTd t))) end.
Definition pop_td (colspan : Z) (t : tb_state) : res tb_state :=
  match tbTd t with [] => Panic | _ :: r => Ok (emit "</td>" (TB (tbOut t) (tbBr t) (tbTh t) r)) end.

(** textBlock.go:93-102 *)
Definition block_elems : list string := ["div"; "p"; "h1"; "h2"; "h3"; "h4"; "h5"; "h6"].

(** textBlock.go:72-109 *)
Definition tb_open (name : string) (attrs : list (string * string)) (t : tb_state) : res tb_state :=
  do t1 <-
    (if String.eqb name "table" then Ok (emit "<table>" (TB (tbOut t) (tbBr t + 1) (tbTh t) (tbTd t)))
     else if String.eqb name "tr" then Ok (emit "<tr>" t)
     else if String.eqb name "th" then col_span_helper attrs push_th (emit "<th>" t)
     else if String.eqb name "td" then col_span_helper attrs push_td (emit "<td>" t)
     else Ok t);
  Ok (if (tbBr t1 <=? 0)%Z && mem String.eqb name block_elems then emit "<br /><br />" t1 else t1).
(** textBlock.go:115-134 *)
Definition tb_close (name : string) (t : tb_state) : res tb_state :=
  if String.eqb name "table" then Ok (emit "</table>" (TB (tbOut t) (tbBr t - 1) (tbTh t) (tbTd t)))
  else if String.eqb name "tr" then Ok (emit "</tr>" t)
  else if String.eqb name "th" then let t1 := emit "</th>" t in col_span2_helper (tbTh t1) pop_th t1
  else if String.eqb name "td" then let t1 := emit "</td>" t in col_span2_helper (tbTd t1) pop_td t1
  else Ok t.
(** textBlock.go:71-135: one iteration *)
Definition tb_token (k : html_token) (t : tb_state) : res tb_state :=
  match k with
  | HStart name attrs | HSelf name attrs => tb_open name attrs t
  | HText data => let d := trim_space data in Ok (if nonempty d then emit (d ++ " ") t else t)
  | HEnd name => tb_close name t
  | HOther => Ok t
  end.
Fixpoint tb_loop (ks : list html_token) (t : tb_state) : res tb_state :=
  match ks with [] => Ok t | k :: r => do t' <- tb_token k t; tb_loop r t' end.
(** textBlock.go:57-140: from the tokens to InnerHtml *)
Definition text_block (ks : list html_token) : res string :=
  do t <- tb_loop ks (TB "" 0 [] []); Ok (tbOut t).

(** ** factualQuadrant.go:7-14 *)
Record fact_expression := FactExpression { feHead : string; feCore : string; feTail : string; feInnerHtml : string }.
Definition empty_expression := FactExpression "" "" "" "".
Definition core (s : string) : fact_expression := FactExpression "" s "" "".
Notation multilingual_fact := (list (string * fact_expression)) (only parsing).

(** pkg/attr/literals.go:20,56-57 *)
Definition NUM := "http://www.xbrl.org/dtr/type/numeric".
Definition PercentItemType := "percentItemType".
Definition TextBlockItemType := "textBlockItemType".

(** What rendering uses: HashQuery (only the concept is read), FindMeasurement, and external
    code: html.UnescapeString followed by the html tokenizer, digits.New (head, core and
    tail), and big.ParseFloat with the multiplication by 100. *)
Record renv := REnv {
  re_concept : string -> option concept;
  re_measurement : string -> option measurement * option measurement;
  re_html : string -> list html_token;
  re_digits : Z -> string -> ascii -> option (string * string * string);
  re_percent : string -> option string }.

(** textBlock.go:45-141 [renderTextBlock]: [Ok None] is nil *)
Definition render_text_block (e : renv) (f : fact) : res (option fact_expression) :=
  match re_concept e (fHref f) with
  | None => Ok (Some (core "error"))
  | Some c =>
      if String.eqb (nlocal (cType c)) TextBlockItemType
      then do h <- text_block (re_html e (fXMLInner f)); Ok (Some (FactExpression "" "" "" h))
      else Ok None
  end.

Definition is_percent (c : concept) : bool :=
  String.eqb (nspace (cType c)) NUM && String.eqb (nlocal (cType c)) PercentItemType.
(** fact.go:72-83 [renderNumeric], 63-70 [renderPercent], 54-61 [SigFigs] *)
Definition render_numeric (e : renv) (value : string) (precision : Z) (g : ascii) : option fact_expression :=
  match re_digits e precision value g with
  | Some (h, c, t) => Some (FactExpression h c t "")
  | None => None
  end.
Definition sig_figs (e : renv) (value : string) (precision : Z) (c : concept) (g : ascii) : option fact_expression :=
  if is_percent c then
    match re_percent e value with None => None | Some p => render_numeric e p precision g end
  else render_numeric e value precision g.

(** english.go:37-90 [renderEnglishFact] and spanish.go:40-93 [renderSpanishFact], which differ
    in the group separator [g] only *)
Definition render_fact (g : ascii) (e : renv) (f : fact) : res fact_expression :=
  match re_concept e (fHref f) with
  | None => Ok (core "error")
  | Some c =>
      do tb <- render_text_block e f;
      match tb with
      | Some x => Ok x
      | None =>
          if (fPrecision f =? Precisionless)%Z then Ok (core (fXMLInner f)) else
          let '(num, den) := re_measurement e (fUnitRef f) in
          match sig_figs e (fXMLInner f) (fPrecision f) c g with
          | None => Ok (core (fXMLInner f))
          | Some x =>
              let head := match num with
                          | Some m => if nonempty (mSymbol m) then mSymbol m ++ " " ++ feHead x else feHead x
                          | None => feHead x
                          end in
              let tail1 := if is_percent c then feTail x ++ "%" else feTail x in
              let tail2 := match num with
                           | None => tail1
                           | Some m =>
                               let t := tail1 ++ " " in
                               let t := if negb (nonempty (mSymbol m)) && negb (is_percent c)
                                        then t ++ mUnitName m else t in
                               match den with
                               | None => t
                               | Some d => t ++ "/" ++ (if nonempty (mSymbol d) then mSymbol d else mUnitName d)
                               end
                           end in
              Ok (FactExpression head (feCore x) tail2 "")
          end
      end
  end.
Definition render_english_fact := render_fact ",".
Definition render_spanish_fact := render_fact " ".

(** fact.go:21-52 [render]; the measurement finder is never nil (see its callers) *)
Fixpoint render_langs (e : renv) (f : fact) (langs : list string) (m : multilingual_fact) : res multilingual_fact :=
  match langs with
  | [] => Ok m
  | lang :: rest =>
      if String.eqb lang English then do x <- render_english_fact e f; render_langs e f rest (sset lang x m)
      else if String.eqb lang Español then do x <- render_spanish_fact e f; render_langs e f rest (sset lang x m)
      else if String.eqb lang PureLabel then do x <- render_english_fact e f; render_langs e f rest (sset lang x m)
      else render_langs e f rest m
  end.
Definition render (e : renv) (f : option fact) (langs : list string) : res multilingual_fact :=
  match f with
  | None => Ok [(PureLabel, empty_expression)]
  | Some f => if fIsNil f then Ok [(PureLabel, core "nil")] else render_langs e f langs []
  end.
