(** * AttrSpec: what pkg/attr promises, independently of its algorithms. *)
From Coq Require Import String Ascii List.
From Verif Require Import GoSpec AttrModel.
Import ListNotations.
Local Open Scope string_scope.

(** [a] declares prefix [p]: it is written xmlns:p="...". *)
Definition is_decl (p : string) (a : xattr) : Prop :=
  nspace (aname a) = "xmlns" /\ nlocal (aname a) = p.

(** [v] is the namespace of the first declaration of [p]; [""] if none. *)
Definition bound_ns (attrs : list xattr) (p v : string) : Prop :=
  (exists a, first_such (is_decl p) attrs a /\ v = avalue a) \/
  ((forall a, In a attrs -> ~ is_decl p a) /\ v = "").

(** default namespace: value of the first attribute named xmlns, else empty *)
Definition default_of (attrs : list xattr) (v : string) : Prop :=
  (exists a, first_such (fun a => nlocal (aname a) = "xmlns") attrs a /\ v = avalue a) \/
  ((forall a, In a attrs -> nlocal (aname a) <> "xmlns") /\ v = "").

(** the meaning of a (possibly) prefixed name *)
Inductive resolves (attrs : list xattr) : string -> xname -> Prop :=
| res_unprefixed name d :
    free_of ":" name -> default_of attrs d -> resolves attrs name (XName d name)
| res_nolocal p :
    free_of ":" p -> resolves attrs (p ++ ":") (XName "" "")
| res_bound p l v :
    free_of ":" p -> l <> "" -> bound_ns attrs p v -> v <> "" ->
    resolves attrs (p ++ ":" ++ l) (XName v l)
| res_default p l d :
    free_of ":" p -> l <> "" -> bound_ns attrs p "" -> default_of attrs d ->
    resolves attrs (p ++ ":" ++ l) (XName d l).

(** Inline documents: [p] is bound to [v] by the (last) xmlns:p attribute. *)
Definition declares (attrs : list qattr) (p v : string) : Prop :=
  exists a, last_such (fun a => quri a = "xmlns" /\ nlocal (qname a) = p) attrs a
            /\ qvalue a = v.
Definition undeclared (attrs : list qattr) (p : string) : Prop :=
  forall a, In a attrs -> ~ (quri a = "xmlns" /\ nlocal (qname a) = p).

(** XBRL infrastructure namespaces and their conventional prefixes *)
Definition standard : list (string * string) :=
  [("http://www.xbrl.org/2003/instance", "");
   ("http://xbrl.org/2006/xbrldi", "xbrldi");
   ("http://www.w3.org/1999/xlink", "xlink");
   ("http://www.w3.org/2001/XMLSchema-instance", "xsi");
   ("http://www.xbrl.org/2003/iso4217", "iso4217");
   ("http://www.xbrl.org/2003/linkbase", "link")].

(** the candidates for a fresh prefix: o, o-a, o-b, ..., o-z *)
Definition candidates (o : string) : list string :=
  o :: map (fun c => o ++ "-" ++ String c "")
           (list_ascii_of_string "abcdefghijklmnopqrstuvwxyz").

(** no declaration binds one of the standard prefixes to a foreign namespace *)
Definition clean (attrs : list qattr) : Prop :=
  forall a v, In a attrs -> quri a = "xmlns" -> In (v, nlocal (qname a)) standard ->
    qvalue a = v.

(** as required by XML: no prefix is declared twice *)
Definition distinct_prefixes (attrs : list qattr) : Prop :=
  NoDup (map (fun a => nlocal (qname a)) (filter (fun a => String.eqb (quri a) "xmlns") attrs)).
