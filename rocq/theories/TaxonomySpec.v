(** * TaxonomySpec: which file of the machine a reference to a schema means *)
From Coq Require Import String List.
From Verif Require Import GoBase GoSpec PathSpec PathModel XmlModel XmlSpec LoadModel ServerModel SetupModel.
Import ListNotations.
Local Open Scope string_scope.

Section Taxonomy.
  Variable m : machine.

  (** the files of the machine: what is at a place does not depend on how the path to it is
      written, os.Stat gives a file its own name, and nothing is read out of an empty file *)
  Record file_system : Prop := {
    fs_read : forall p p' l, leads_to p l -> leads_to p' l -> d_file (w_disk (m_rest m)) p = d_file (w_disk (m_rest m)) p';
    fs_name : forall p name, m_stat m p = Some name -> name = base p;
    fs_exists : forall p, m_stat m p = None -> d_file (w_disk (m_rest m)) p = None;
    fs_empty : d_xml (w_disk (m_rest m)) "" = None }.

  (** the directory an environment variable names, else the current one *)
  Definition directory (variable dir : string) : Prop :=
    (variable <> "" /\ dir = variable) \/ (variable = "" /\ m_cwd m = Some dir).
  (** an absolute URL with a scheme and a host *)
  Definition web_address (s : string) (u : url) : Prop :=
    m_request_uri m s = true /\ exists host, m_parse m s = Ok (u, host) /\ uScheme u <> "" /\ host <> "".
  (** one whose host and path are names of files *)
  Definition tame_address (s : string) : Prop :=
    forall u, web_address s u -> entry_name_ok (uScheme u) /\ entry_name_ok (uHostname u) /\ no_parent (uPath u).
  (** the bytes at that place *)
  Definition stored (l : location) (data : string) : Prop :=
    exists path, leads_to path l /\ d_file (w_disk (m_rest m)) path = Some data.
  (** the schema for the address, in the taxonomy set: $GTS/gts/concepts/scheme/host/path *)
  Definition web_document (s : string) (t : tree) : Prop :=
    exists u dir l ns data, web_address s u /\ directory (m_GTS m) dir /\ leads_to dir l /\ path_names (uPath u) ns /\
      stored (below l (["gts"; "concepts"; uScheme u; uHostname u] ++ ns)) data /\
      d_xml (w_disk (m_rest m)) data = Some t /\ locally_named "schema" t.
End Taxonomy.
