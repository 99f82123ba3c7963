(** Model of the mapping from taxonomy URLs to files
    (pkg/serializables/global.go) and of path/filepath on Unix. *)
From Coq Require Import Strings.String Strings.Ascii Lists.List Bool.
From Verif Require Import GoBase.
Import ListNotations.
Open Scope string_scope.

(** ** path/filepath (standard library, Unix), by its documentation

    One segment of filepath.Clean; [out] holds the kept segments, last first. *)
Definition clean_segment (rooted : bool) (out : list string) (seg : string) : list string :=
  if String.eqb seg "" || String.eqb seg "." then out
  else if String.eqb seg ".." then
    match out with
    | [] => if rooted then [] else [".."]
    | top :: rest => if String.eqb top ".." then ".." :: out else rest
    end
  else seg :: out.

Definition is_rooted (s : string) : bool :=
  match s with String c _ => Ascii.eqb c "/" | EmptyString => false end.

(** filepath.Clean *)
Definition clean (s : string) : string :=
  let rooted := is_rooted s in
  let out := rev (fold_left (clean_segment rooted) (split "/" s) []) in
  if rooted then "/" ++ String.concat "/" out
  else match out with [] => "." | _ => String.concat "/" out end.

(** filepath.Join *)
Definition join (elems : list string) : string :=
  match filter nonempty elems with
  | [] => ""
  | es => clean (String.concat "/" es)
  end.

(** filepath.Base: the last segment that is not empty *)
Definition base (s : string) : string :=
  match s with
  | EmptyString => "."
  | _ => match filter nonempty (split "/" s) with
         | [] => "/"
         | seg :: rest => last rest seg
         end
  end.

(** ** URLs

    The parts of a net/url.URL that are used: Scheme, Hostname() and Path.
    url.Parse itself is the argument [parse]. *)
Record url := Url { uScheme : string; uHostname : string; uPath : string }.

Section WithParse.
  Variable parse : string -> res url.
  (** GlobalTaxonomySetPath *)
  Variable gts : string.

  (** pkg/serializables/global.go:27-46 [UrlToFilename] *)
  Definition url_to_filename (urlStr : string) : res string :=
    do u <- parse urlStr;
    if negb (nonempty (uScheme u)) then Err "empty scheme"
    else if negb (nonempty (uHostname u)) then Err "empty hostname"
    else
      let dest := join [uScheme u; uHostname u] in
      let dest := fold_left (fun d s => join [d; s]) (split "/" (uPath u)) dest in
      Ok (join [gts; "concepts"; dest]).

  (** os.Stat: the base name of the file, or an error; os.ReadFile: the bytes,
      or an error.  Both may answer differently on the two calls (files come
      and go); they are arguments. *)
  Variable stat : string -> option string.
  Variable read_file : string -> option string.

  (** filepath.Split: everything up to and including the last slash *)
  Fixpoint dir_part (s : string) : string :=
    match s with
    | EmptyString => ""
    | String c r => if has_char "/" s then String c (dir_part r) else ""
    end.

  (** pkg/serializables/global.go:48-64 [DiscoverGlobalFile].  The err of the
      if statement shadows the outer one, which is nil at the final return;
      [Ok None] is (nil, nil). *)
  Definition discover_global_file (urlStr : string) : res (option string) :=
    do dest <- url_to_filename urlStr;
    match stat dest with
    | Some filename =>
        match read_file (join [dir_part dest; filename]) with
        | Some bytes => Ok (Some bytes)
        | None => Ok None
        end
    | None => Ok None
    end.

  (** pkg/serializables/global.go:66-72 [DiscoverGlobalSchema] and
      pkg/serializables/global.go:19-25 [DiscoverFundamentalSchema];
      [decode] is DecodeSchemaFile (nil and empty slices read alike). *)
  Variable A : Type.
  Variable decode : string -> res A.
  Definition discover_global_schema (urlStr : string) : res A :=
    do bytes <- discover_global_file urlStr;
    decode (match bytes with Some b => b | None => "" end).
  Definition discover_fundamental_schema : res A :=
    discover_global_schema "http://www.xbrl.org/2003/xbrl-role-2003-07-31.xsd".
End WithParse.
