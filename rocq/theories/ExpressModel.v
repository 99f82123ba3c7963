(** * ExpressModel: pkg/renderables/expressable.go: the answer to a request for one fact *)
From Verif Require Import GoBase AttrModel SchemaModel InstanceModel HydrateModel LabelModel PeriodModel FactModel GridModel.
Local Open Scope string_scope.

(** expressable.go:9-19 [Expressable]; the embedded structs VoidQuadrant and
    ContextualMemberGrid are the fields [exVoid] and [exMembers] *)
Record expressable := Expressable {
  exHref : string; exLabels : label_pack; exPeriod : language_pack;
  exVoid : list void_cell; exMembers : list (list member_cell);
  exExpression : multilingual_fact; exFootnotes : list string }.

(** What the hydratable offers. Every loop over the map Instances has its own order:
    expressable.go:31-34, FindFact, getRelevantContexts, and the two of GetFootnotes. *)
Record xenv := XEnv {
  xe_first : list instance; xe_facts : list instance; xe_contexts : list instance;
  xe_notes1 : list instance; xe_notes2 : list instance;
  xe_query : qenv;                                       (* NameQuery *)
  xe_labels : string -> label_pack;                      (* GetLabel *)
  xe_concept : string -> option concept;                 (* HashQuery *)
  xe_render : renv;
  xe_tree : list arc -> string -> rarc;                  (* external *)
  xe_spanish : date -> option string;                    (* external *)
  xe_typed_order : context -> typed_member -> list (string * string);
  xe_member_order : list (string * relevant_member) -> list (string * relevant_member) }.

(** expressable.go:53-59 *)
Definition expressed (ref : string) (cols : list relevant_context) : list relevant_context :=
  match find (fun r => String.eqb (rcContextRef r) ref) cols with Some r => [r] | None => [] end.

(** expressable.go:21-81 [MarshalExpressable]; [Ok None] is [return nil, nil]. A nil Document
    is dereferenced (22), and so is a nil context (45: contexts.go:106). [extracted] is nil
    without instances, but then FindFact has returned nil. A href not found is "" (35).
    json.Marshal does not fail on this type; its bytes are in ResponseModel. *)
Definition marshal_expressable (e : xenv) (doc : option document) (name ref : string) : res (option expressable) :=
  match doc with
  | None => Panic
  | Some d =>
      match sget name (docNames d), sget ref (docContexts d) with
      | None, _ | _, None => Ok None
      | Some n, Some _ =>
          do found <- name_query (xe_query e) (nspace n) (nlocal n);
          let href := match found with Some (h, _) => h | None => "" end in
          let labels := xe_labels e href in
          match find_fact (xe_facts e) href ref with
          | None => Ok None
          | Some f =>
              match xe_first e with
              | [] => Panic
              | extracted :: _ =>
                  match get_context extracted ref with
                  | None => Panic
                  | Some c =>
                      do (cols, seg, scen, _) <-
                        get_relevant_contexts (xe_tree e) (xe_labels e) (xe_concept e) (xe_typed_order e)
                          (ctxScheme c ++ "/" ++ ctxIdentifier c) (xe_contexts e) [href];
                      do (grid, void) <- get_member_grid (xe_member_order e) (expressed ref cols) seg scen;
                      do m <- render (xe_render e) (Some f) [PureLabel];
                      Ok (Some (Expressable href labels
                                  (period_multilingual_string (xe_spanish e) labels c) void grid m
                                  (map fnHtml (get_footnotes (xe_tree e) (xe_notes1 e) (xe_notes2 e) (Some f)))))
                  end
              end
          end
      end
  end.
