(** * BrowserModel: the file server of the web page: internal/web/web.go:111-116 in [NewRouter] on
    net/http's StripPrefix, FileServer and Dir (standard library, external), by their
    documentation and their code in Go 1.22.

    Left out: ranges and conditional requests (If-Modified-Since and the like), the headers
    Last-Modified, Accept-Ranges and Content-Length, symbolic links, and errors while a file
    that could be opened is read. *)
From Coq Require Import String Ascii List Bool.
From Verif Require Import GoBase PathModel WebModel RouterModel.
Import ListNotations.
Local Open Scope string_scope.

(** os.Open and Stat: what is at a path *)
Inductive opened :=
| AFile (data : string)
| ADirectory
| NotThere                (* fs.ErrNotExist, or the path goes through a file *)
| NotAllowed              (* fs.ErrPermission *)
| NotReadable.            (* any other error *)

(** The machine: the current directory, what is at each path, the page net/http makes of the
    names in a directory, and the media type by the name and the beginning of a file. *)
Record site := Site {
  site_cwd : string;
  site_open : string -> opened;
  site_listing : string -> string;
  site_type : string -> string -> string }.

(** strings.HasSuffix *)
Fixpoint has_suffix (suffix s : string) : bool :=
  String.eqb s suffix || match s with EmptyString => false | String _ r => has_suffix suffix r end.
(** bytes in a string *)
Fixpoint has_byte (c : ascii) (s : string) : bool :=
  match s with EmptyString => false | String a r => Ascii.eqb a c || has_byte c r end.

Section Browser.
  Variable m : site.

  (** web.go:114: filepath.Join(wd, "goldlord-midas") *)
  Definition site_root : string := join [site_cwd m; "goldlord-midas"].

  (** http.Dir.Open: path.Clean("/" + name)[1:], "." if that is empty; a name with a NUL byte is
      not local. The path that is opened: *)
  Definition dir_path (name : string) : string :=
    let p := match clean ("/" ++ name) with String _ r => r | EmptyString => "" end in
    join [site_root; if nonempty p then p else "."].
  Definition dir_open (name : string) : opened :=
    if has_byte Ascii.zero (clean ("/" ++ name)) then NotReadable else site_open m (dir_path name).

  (** http.localRedirect *)
  Definition local_redirect (location query : string) : response :=
    Response 301 [("Location", if nonempty query then location ++ "?" ++ query else location)] "".
  (** http.Error with the messages of toHTTPError *)
  Definition file_error (msg : string) (code : nat) : response :=
    finish (fun _ => "") (http_error msg code new_writer).
  (** http.serveContent of a whole file *)
  Definition content (name data : string) : response :=
    Response 200 [("Content-Type", site_type m name data)] data.
  (** http.dirList *)
  Definition dir_list (name : string) : response :=
    Response 200 [("Content-Type", "text/html; charset=utf-8")] (site_listing m (dir_path name)).

  (** strings.TrimSuffix(name, "/") of a clean name *)
  Definition without_slash (name : string) : string := if String.eqb name "/" then "" else name.

  (** http.serveFile with redirects; [url] is the path of the request *)
  Definition serve_file (url query : string) : response :=
    let name := clean url in
    if has_suffix "/index.html" url then local_redirect "./" query
    else match dir_open name with
    | NotThere => file_error "404 page not found" 404
    | NotAllowed => file_error "403 Forbidden" 403
    | NotReadable => file_error "500 Internal Server Error" 500
    | ADirectory =>
        if negb (ends_with_slash url) then local_redirect (base url ++ "/") query
        else match dir_open (without_slash name ++ "/index.html") with
             | AFile data => content "index.html" data
             | ADirectory => dir_list (without_slash name ++ "/index.html")
             | _ => dir_list name
             end
    | AFile data =>
        if ends_with_slash url then
          if String.eqb (base url) "/" then file_error "http: attempting to traverse a non-directory" 500
          else local_redirect ("../" ++ base url) query
        else content (base name) data
    end.

  (** http.FileServer: a path without a slash at the beginning gets one *)
  Definition file_server (upath query : string) : response :=
    serve_file (if is_rooted upath then upath else "/" ++ upath) query.

  (** web.go:115: http.StripPrefix("/", ...); the body of an answer to HEAD is not sent *)
  Definition browse (method path query : string) : response :=
    let x := match strip "/" path with
             | Some p => file_server p query
             | None => file_error "404 page not found" 404
             end in
    if String.eqb method "HEAD" then Response (status x) (header x) "" else x.
End Browser.

(** web.go:103-117: the answers to requests with this query, with the file server as above *)
Definition with_browser (m : site) (s : services) (query : string) : services :=
  Services (svCatalog s) (svRenderable s) (svExpressable s) (fun method path => Some (browse m method path query)).
