(** * HydrateModel: pkg/hydratables/document.go and hydratable.go *)
From Verif Require Import GoBase AttrModel SchemaModel LinkbaseModel InstanceModel.
Local Open Scope string_scope.

(** ** document.go *)

(** pkg/serializables/document.go:15-27 [Document]: what document.go reads of it, the attributes
    of the root element and of the ix:nonNumeric and ix:nonFraction elements *)
Record doc_source := DocSource {
  dsHtml : list qattr; dsNonNumerics : list (list qattr); dsNonFractions : list (list qattr) }.
(** document.go:12-15 [Document] *)
Record document := Document { docNames : list (string * xname); docContexts : list (string * bool) }.

(** document.go:38-53 and 66-81: what a goroutine does after it has found [goErr]
    nil: it panics (nil attribute or unprefixed name), sets [goErr], or updates
    the two maps under the lock. *)
Inductive effect := ECrash | EFail (msg : string) | EPut (name : string) (x : xname) (ctx : string).
Definition doc_body (np : name_provider) (attrs : list qattr) : effect :=
  match find_xpath_attr attrs "name" with
  | None => ECrash
  | Some n =>
      match provide_xml_name np (qvalue n) with
      | Panic => ECrash
      | Err m => EFail m
      | Ok x => match find_xpath_attr attrs "contextRef" with
                | None => ECrash
                | Some c => EPut (qvalue n) x (qvalue c)
                end
      end
  end.

(** The goroutines of one of the two loops. A goroutine reads [goErr] (one step),
    then runs its body (one step): steps of different goroutines interleave
    freely. Simplification: reads and writes of the unprotected [goErr] are
    atomic; the locked region is one step. *)
Inductive gstate := GStart | GChecked | GDone.
Record dconf := DConf {
  dErr : option string; dNames : list (string * xname); dCtx : list (string * bool);
  dThreads : list (list qattr * gstate) }.
Definition set_thread (c : dconf) (l : list (list qattr * gstate)) : dconf :=
  DConf (dErr c) (dNames c) (dCtx c) l.
(** one step; [None]: a goroutine panicked and with it the process *)
Inductive dstep (np : name_provider) : dconf -> option dconf -> Prop :=
| step_check e n c l1 a l2 : (* document.go:35-37, 63-65 *)
    dstep np (DConf e n c (l1 ++ (a, GStart) :: l2))
      (Some (DConf e n c (l1 ++ (a, match e with None => GChecked | Some _ => GDone end) :: l2)))
| step_crash e n c l1 a l2 : doc_body np a = ECrash ->
    dstep np (DConf e n c (l1 ++ (a, GChecked) :: l2)) None
| step_fail e n c l1 a l2 m : doc_body np a = EFail m -> (* document.go:41-44, 69-72 *)
    dstep np (DConf e n c (l1 ++ (a, GChecked) :: l2)) (Some (DConf (Some m) n c (l1 ++ (a, GDone) :: l2)))
| step_put e n c l1 a l2 k x r : doc_body np a = EPut k x r -> (* document.go:45-48, 73-76 *)
    dstep np (DConf e n c (l1 ++ (a, GChecked) :: l2))
      (Some (DConf e (sset k x n) (sset r true c) (l1 ++ (a, GDone) :: l2))).

(** [wg.Wait()]: all goroutines are done *)
Definition all_done (c : dconf) : Prop := forall t, In t (dThreads c) -> snd t = GDone.
Inductive druns (np : name_provider) : dconf -> option dconf -> Prop :=
| runs_end c : all_done c -> druns np c (Some c)
| runs_crash c : dstep np c None -> druns np c None
| runs_step c c' r : dstep np c (Some c') -> druns np c' r -> druns np c r.

(** document.go:28-54 and 55-82: start the goroutines, wait, check the error *)
Definition dinit (elems : list (list qattr)) (n : list (string * xname)) (c : list (string * bool)) : dconf :=
  DConf None n c (map (fun a => (a, GStart)) elems).
Inductive phase (np : name_provider) (elems : list (list qattr)) (n : list (string * xname)) (c : list (string * bool))
  : res (list (string * xname) * list (string * bool)) -> Prop :=
| phase_crash : druns np (dinit elems n c) None -> phase np elems n c Panic
| phase_err f m : druns np (dinit elems n c) (Some f) -> dErr f = Some m -> phase np elems n c (Err m)
| phase_ok f : druns np (dinit elems n c) (Some f) -> dErr f = None -> phase np elems n c (Ok (dNames f, dCtx f)).

(** document.go:17-86 [HydrateDocument]: the possible outcomes *)
Inductive hydrate_document : option doc_source -> res (option document) -> Prop :=
| doc_nil : hydrate_document None (Ok None)
| doc_provider s : new_name_provider (dsHtml s) = Panic -> hydrate_document (Some s) Panic
| doc_provider_err s m : new_name_provider (dsHtml s) = Err m -> hydrate_document (Some s) (Err m)
| doc_first_crash s np : new_name_provider (dsHtml s) = Ok np ->
    phase np (dsNonNumerics s) [] [] Panic -> hydrate_document (Some s) Panic
| doc_first_err s np m : new_name_provider (dsHtml s) = Ok np ->
    phase np (dsNonNumerics s) [] [] (Err m) -> hydrate_document (Some s) (Err m)
| doc_second_crash s np n c : new_name_provider (dsHtml s) = Ok np ->
    phase np (dsNonNumerics s) [] [] (Ok (n, c)) -> phase np (dsNonFractions s) n c Panic ->
    hydrate_document (Some s) Panic
| doc_second_err s np n c m : new_name_provider (dsHtml s) = Ok np ->
    phase np (dsNonNumerics s) [] [] (Ok (n, c)) -> phase np (dsNonFractions s) n c (Err m) ->
    hydrate_document (Some s) (Err m)
| doc_ok s np n c n' c' : new_name_provider (dsHtml s) = Ok np ->
    phase np (dsNonNumerics s) [] [] (Ok (n, c)) -> phase np (dsNonFractions s) n c (Ok (n', c')) ->
    hydrate_document (Some s) (Ok (Some (Document n' c'))).

(** document.go:33,60: a goroutine panics, which ends the process. The other panic, of
    NewNameProvider, is one of the caller's goroutine. *)
Definition crashed_document (d : option doc_source) : Prop :=
  exists s np, d = Some s /\ new_name_provider (dsHtml s) = Ok np /\ hydrate_document d Panic.

(** ** hydratable.go *)

(** pkg/serializables/folder.go:17-30 [Folder]: the fields read after discovery *)
Record folder := Folder {
  fdEntry : string;
  fdNamespaces : list (string * string);
  fdSchemas : list (string * schema_file);
  fdPresentation : list (string * linkbase_file);
  fdDefinition : list (string * linkbase_file);
  fdCalculation : list (string * linkbase_file);
  fdLabel : list (string * linkbase_file);
  fdInstances : list (string * instance_file);
  fdDocument : option doc_source }.

(** hydratable.go:7-17 [Hydratable] *)
Record hydratable := Hydratable {
  hFolder : folder;
  hRegistry : registry;
  hDocument : option document;
  hInstances : list (string * instance);
  hSchemas : list (string * schema);
  hLabel : list (string * label_linkbase);
  hPresentation : list (string * linkbase parc);
  hDefinition : list (string * linkbase darc);
  hCalculation : list (string * linkbase carc) }.

(** the loops of hydratable.go:29-70: the list is the iteration order of the map;
    the first error is returned *)
Definition hydrate_each {A B} (f : option A -> string -> res B) (files : list (string * A))
  : res (list (string * B)) :=
  mapM (fun kv => do b <- f (Some (snd kv)) (fst kv); Ok (fst kv, b)) files.

(** what queries read of a folder (see [qenv]) *)
Definition env_of (f : folder) (is_url : string -> bool) (discover : string -> res schema_file) : qenv :=
  QEnv (fdNamespaces f) (fdSchemas f) is_url discover.

(** the three map iteration orders inside dedupPresentationLink and its siblings, per file *)
Record shuffles := Shuffles {
  shP : string -> list (string * link parc) -> list (string * link parc);
  shD : string -> list (string * link darc) -> list (string * link darc);
  shC : string -> list (string * link carc) -> list (string * link carc) }.
(** [range]: every entry once, in some order *)
Definition orders (sh : shuffles) : Prop :=
  (forall n l, Permutation (shP sh n l) l) /\ (forall n l, Permutation (shD sh n l) l) /\ (forall n l, Permutation (shC sh n l) l).

(** hydratable.go:19-82 [Hydrate]; [utr] is the outcome of HydrateUnitTypeRegistry and
    [doc] that of HydrateDocument. *)
Definition hydrate (pf : string -> f64 * bool) (sh : shuffles) (is_url : string -> bool)
    (discover : string -> res schema_file) (tokens : string -> list token)
    (utr : res registry) (doc : res (option document)) (f : folder) : res hydratable :=
  do ss <- hydrate_each hydrate_schema (fdSchemas f);
  do ps <- hydrate_each (fun x n => hydrate_linkbase (hydrate_parc pf) (shP sh n) x n) (fdPresentation f);
  do ds <- hydrate_each (fun x n => hydrate_linkbase (hydrate_darc pf) (shD sh n) x n) (fdDefinition f);
  do cs <- hydrate_each (fun x n => hydrate_linkbase (hydrate_carc pf) (shC sh n) x n) (fdCalculation f);
  do ls <- hydrate_each (hydrate_label_linkbase pf) (fdLabel f);
  do is <- hydrate_each (hydrate_instance (env_of f is_url discover) tokens) (fdInstances f);
  do u <- utr;
  do d <- doc;
  Ok (Hydratable f u d is ss ls ps ds cs).
