(** * AttrModel: pkg/attr *)
From Verif Require Import GoBase.
Local Open Scope string_scope.

(** encoding/xml [xml.Name] and [xml.Attr]. *)
Record xname := XName { nspace : string; nlocal : string }.
Record xattr := XAttr { aname : xname; avalue : string }.

(** pkg/attr/attr.go:10-17 [FindAttr]: first attribute whose local name matches;
    [None] is the nil pointer. *)
Definition find_attr (attrs : list xattr) (n : string) : option xattr :=
  find (fun a => String.eqb (nlocal (aname a)) n) attrs.

(** pkg/attr/attr.go:59-66 [Ns] *)
Fixpoint ns (attrs : list xattr) (prefix : string) : string :=
  match attrs with
  | [] => ""
  | a :: t =>
      if String.eqb (nspace (aname a)) "xmlns" && String.eqb (nlocal (aname a)) prefix
      then avalue a else ns t prefix
  end.

(** the two lookups of the default namespace in [Xmlns],
    pkg/attr/attr.go:31-35 and 48-51 *)
Definition default_ns (attrs : list xattr) : string :=
  match find_attr attrs "xmlns" with Some a => avalue a | None => "" end.

(** pkg/attr/attr.go:28-57 [Xmlns] *)
Definition xmlns (attrs : list xattr) (prefixedName : string) : xname :=
  match cut ":" prefixedName with
  | None => XName (default_ns attrs) prefixedName
  | Some (prefix, local) =>
      if negb (nonempty local) then XName "" ""
      else
        let space := ns attrs prefix in
        let space := if String.eqb space "" then default_ns attrs else space in
        XName space local
  end.

(** ** pkg/attr/name.go *)

(** github.com/antchfx/xmlquery [Attr]: name, value and namespace URI. *)
Record qattr := QAttr { qname : xname; qvalue : string; quri : string }.

(** pkg/attr/attr.go:19-26 [FindXpathAttr] *)
Definition find_xpath_attr (attrs : list qattr) (n : string) : option qattr :=
  find (fun a => String.eqb (nlocal (qname a)) n) attrs.

(** pkg/attr/name.go:17-20 [NameProvider]; both maps as association lists. *)
Record name_provider := NP {
  originPrefixes : list (string * string);  (* prefix -> namespace *)
  targetPrefixes : list (string * string)   (* prefix -> canonical prefix *)
}.

(** pkg/attr/literals.go:5-20 *)
Definition XLINK := "http://www.w3.org/1999/xlink".
Definition XBRLI := "http://www.xbrl.org/2003/instance".
Definition LINK := "http://www.xbrl.org/2003/linkbase".
Definition XBRLDI := "http://xbrl.org/2006/xbrldi".
Definition XSI := "http://www.w3.org/2001/XMLSchema-instance".
Definition ISO4217 := "http://www.xbrl.org/2003/iso4217".

(** pkg/attr/name.go:143-146: the array [arr] *)
Definition letters : list string :=
  ["a";"b";"c";"d";"e";"f";"g";"h";"i";"j";"k";"l";"m";
   "n";"o";"p";"q";"r";"s";"t";"u";"v";"w";"x";"y";"z"].

(** pkg/attr/name.go:148-153 [toChar]. Negative indices panic (Go's bounds
    check); the fuel bounds the recursion and is never exhausted for
    [fuel > i]. *)
Fixpoint to_char (fuel : nat) (i : Z) : res string :=
  match fuel with
  | O => Err "fuel"
  | S f =>
      if (i <? 26)%Z then
        if (i <? 0)%Z then Panic
        else match nth_error letters (Z.to_nat i) with Some s => Ok s | None => Panic end
      else do r <- to_char f (i - 26 - 1)%Z; Ok ("z" ++ r)
  end.

(** pkg/attr/name.go:123-141 [newPrefix]: the [for] loop; [acc] counts the
    attempts. The inner range over the map only computes "is a key", so its
    order is irrelevant. *)
Fixpoint new_prefix_loop (fuel : nat) (origin : string) (prefixes : list (string * string))
         (curr : string) (acc : nat) : res string :=
  match fuel with
  | O => Err "fuel"
  | S f =>
      match sget curr prefixes with
      | None => Ok curr
      | Some _ =>
          do c <- to_char (S acc) (Z.of_nat acc);
          new_prefix_loop f origin prefixes (origin ++ "-" ++ c) (S acc)
      end
  end.
Definition new_prefix (origin : string) (prefixes : list (string * string)) : res string :=
  new_prefix_loop 28 origin prefixes origin 0.

(** pkg/attr/name.go:113-121 [targetPrefix] *)
Definition target_prefix (curr : qattr) (acc prefixes : list (string * string))
  : res (string * string) :=
  match sget (qvalue curr) acc with
  | None => do p <- new_prefix (nlocal (qname curr)) prefixes; Ok (p, qvalue curr)
  | Some prev => Ok (prev, qvalue curr)
  end.

(** pkg/attr/name.go:81-88 [nameMap] *)
Definition name_map0 : list (string * string) :=
  [(XBRLI, ""); (XBRLDI, "xbrldi"); (XLINK, "xlink"); (XSI, "xsi");
   (ISO4217, "iso4217"); (LINK, "link")].
(** pkg/attr/name.go:90-97 [prefixes] *)
Definition prefixes0 : list (string * string) :=
  [("", XBRLI); ("xbrldi", XBRLDI); ("xlink", XLINK); ("xsi", XSI);
   ("iso4217", ISO4217); ("link", LINK)].

(** pkg/attr/name.go:99-109: the loop of [processPrefixes]; the state is
    (nameMap, prefixes, origin, target). *)
Fixpoint process_loop (attrs : list qattr) (nameMap prefixes origin target : list (string * string))
  : res name_provider :=
  match attrs with
  | [] => Ok (NP origin target)
  | a :: rest =>
      if negb (String.eqb (quri a) "xmlns") then process_loop rest nameMap prefixes origin target
      else
        let o := nlocal (qname a) in
        do tc <- target_prefix a nameMap prefixes;
        let '(t, currSpace) := tc in
        process_loop rest (sset (qvalue a) t nameMap) (sset o currSpace prefixes)
                     (sset o currSpace origin) (sset o t target)
  end.

(** pkg/attr/name.go:80-111 [processPrefixes] with 22-28 [NewNameProvider] *)
Definition new_name_provider (attrs : list qattr) : res name_provider :=
  process_loop attrs name_map0 prefixes0 [] [].

(** pkg/attr/name.go:30-42 [ProvideConceptName] *)
Definition provide_concept_name (np : name_provider) (prefixed : string) : res string :=
  match cut ":" prefixed with
  | None => Ok prefixed
  | Some (p, local) =>
      match sget p (originPrefixes np), sget p (targetPrefixes np) with
      | Some _, Some t => Ok (t ++ ":" ++ local)
      | _, _ => Panic
      end
  end.

(** pkg/attr/name.go:44-60 [ProvideXmlName]; without a colon [i] is -1 and
    [prefixed[i:]] (line 49) is a slice-bounds panic. *)
Definition provide_xml_name (np : name_provider) (prefixed : string) : res xname :=
  match cut ":" prefixed with
  | None => Panic
  | Some (p, local) =>
      match sget p (originPrefixes np) with
      | Some space => Ok (XName space local)
      | None => Err ("prefix, " ++ p ++ ", does not match a namespace")
      end
  end.

(** pkg/attr/name.go:62-78 [ProvideName]. [order] is the sequence in which the
    range loop (65-71) visits [originPrefixes]. A key missing in
    [targetPrefixes] gives the zero prefix. *)
Fixpoint provide_name_loop (order target : list (string * string)) (nspc : string)
  : string * bool :=
  match order with
  | [] => ("", false)
  | (o, s) :: rest =>
      if String.eqb s nspc
      then (match sget o target with Some t => t | None => "" end, true)
      else provide_name_loop rest target nspc
  end.
Definition provide_name (order : list (string * string)) (np : name_provider)
           (nspc local : string) : res string :=
  let '(resultPrefix, found) := provide_name_loop order (targetPrefixes np) nspc in
  if nonempty resultPrefix && found then Ok (resultPrefix ++ ":" ++ local)
  else if negb (nonempty resultPrefix) then Ok local
  else Panic.
