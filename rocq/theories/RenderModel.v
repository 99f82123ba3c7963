(** * RenderModel: pkg/renderables/renderable.go:43-91 and formatPeriod.go:8-18: the three grid
    goroutines of a renderable and the two slices they share *)
From Verif Require Import GoBase LabelModel PeriodModel GridModel CalcModel DefModel.
Local Open Scope string_scope.

(** ** Slices

    A slice variable holds the number of an array and a length; the capacity is what the array
    has. A slot that has never been written is [None]. *)
Record header := Header { hdArray : nat; hdLen : nat }.
Record memory := Memory { mArrays : list (list (option string)); mVars : list header }.

Fixpoint set_nth {A} (l : list A) (n : nat) (x : A) : list A :=
  match l, n with
  | [], _ => []
  | _ :: r, O => x :: r
  | y :: r, S m => y :: set_nth r m x
  end.
Definition array (m : memory) (a : nat) : list (option string) := nth a (mArrays m) [].
Definition slot (m : memory) (a k : nat) : option string := nth k (array m a) None.
Definition store (m : memory) (a k : nat) (x : option string) : memory :=
  Memory (set_nth (mArrays m) a (set_nth (array m a) k x)) (mVars m).
Definition var (m : memory) (v : nat) : header := nth v (mVars m) (Header 0 0).
(** what a reader of the variable sees *)
Definition contents (m : memory) (v : nat) : list (option string) :=
  firstn (hdLen (var m v)) (array m (hdArray (var m v))).

(** ** [x = append(x, ys...)] without synchronisation

    The machine reads the header; if the capacity does not suffice it allocates an array (of a
    capacity the runtime chooses) and copies the old elements one by one; it then writes the new
    elements one by one and finally stores the header. Simplification: reading or storing a
    header is one step (on a real machine it is three words, so that a torn header is possible,
    too). *)
Inductive pc :=
| AtStart
| Loaded (h : header)
| Copying (h : header) (new k : nat)
| Writing (a off k : nat).
(** what a goroutine still has to append: variable and elements; the head is in progress *)
Record thread := Thread { thPC : pc; thTodo : list (nat * list string) }.

(** One step of one goroutine. [c] is the capacity the runtime picks should it have to grow the
    slice; [None]: the goroutine has ended, or [c] is too small. *)
Definition tstep (c : nat) (m : memory) (t : thread) : option (memory * thread) :=
  match thTodo t with
  | [] => None
  | (v, ys) :: rest =>
      match thPC t with
      | AtStart => Some (m, Thread (Loaded (var m v)) (thTodo t))
      | Loaded h =>
          if Nat.leb (hdLen h + List.length ys) (List.length (array m (hdArray h)))
          then Some (m, Thread (Writing (hdArray h) (hdLen h) 0) (thTodo t))
          else if Nat.leb (hdLen h + List.length ys) c
          then Some (Memory (mArrays m ++ [repeat None c])%list (mVars m),
                     Thread (Copying h (List.length (mArrays m)) 0) (thTodo t))
          else None
      | Copying h new k =>
          if Nat.ltb k (hdLen h)
          then Some (store m new k (slot m (hdArray h) k), Thread (Copying h new (S k)) (thTodo t))
          else Some (m, Thread (Writing new (hdLen h) 0) (thTodo t))
      | Writing a off k =>
          match nth_error ys k with
          | Some y => Some (store m a (off + k) (Some y), Thread (Writing a off (S k)) (thTodo t))
          | None => Some (Memory (mArrays m) (set_nth (mVars m) v (Header a (off + List.length ys))),
                          Thread AtStart rest)
          end
      end
  end.
Record rconf := RConf { rcMem : memory; rcThreads : list thread }.
(** one step of some goroutine *)
Inductive rstep : rconf -> rconf -> Prop :=
| rstep_thread c m m' l1 t t' l2 : tstep c m t = Some (m', t') ->
    rstep (RConf m (l1 ++ t :: l2)) (RConf m' (l1 ++ t' :: l2)).
Inductive rsteps : rconf -> rconf -> Prop :=
| rsteps_refl c : rsteps c c
| rsteps_step c c' c'' : rsteps c c' -> rstep c' c'' -> rsteps c c''.
(** [wg.Wait()] *)
Definition rdone (c : rconf) : Prop := forall t, In t (rcThreads c) -> thTodo t = [].

(** ** renderable.go:43-91 *)

(** variable 0 is labelRoles, variable 1 is langs (renderable.go:54-55) *)
Definition initial_memory : memory := Memory [repeat None 20; repeat None 8] [Header 0 0; Header 1 0].
(** renderable.go:56-88: what a goroutine appends; nothing after an error *)
Definition goroutine {G} (r : res (G * list string * list string)) : thread :=
  Thread AtStart (match r with Ok (_, lr, ln) => [(0, lr); (1, ln)] | _ => [] end).
(** the strings of the slots; that no slot is unwritten is a theorem *)
Definition strings_of (l : list (option string)) : list string :=
  map (fun x => match x with Some s => s | None => "" end) l.
(** renderable.go:90-91, label.go [dedupLang], [dedupLabelRole] *)
Definition final_roles (c : rconf) : list string := dedup_strings (strings_of (contents (rcMem c) 0)).
Definition final_langs (c : rconf) : list string := dedup_strings (strings_of (contents (rcMem c) 1)).

(** the grids of a renderable (renderable.go:31-33); a grid that failed keeps its zero value *)
Record grids := Grids { gdP : p_grid; gdD : d_grid; gdC : list summation_item }.
Definition grid_or {G} (zero : G) (r : res (G * list string * list string)) : G :=
  match r with Ok (g, _, _) => g | _ => zero end.
Definition zero_p : p_grid := PGrid [] [] [] [] [] [] [].
Definition zero_d : d_grid := DGrid [] (DRS [] []).

Section Formats.
  Variable strftime_es : date -> option string.
  (** formatPeriod.go:8-18 [formatPeriod]: the loops of lines 10-15 assign to copies, but the
      maps they update are shared *)
  Definition format_p (langs : list string) (p : p_grid) : p_grid :=
    PGrid (pgLabels p) (format_relevant_period strftime_es (pgPeriods p) langs) (pgMembers p) (pgVoid p)
      (pgFacts p) (pgFootnoteGrid p) (pgFootnotes p).
  Definition format_root (langs : list string) (r : root_domain) : root_domain :=
    RootDomain (rdHref r) (rdLabel r) (rdItems r) (format_relevant_period strftime_es (rdPeriods r) langs)
      (rdMembers r) (rdVoid r) (rdFacts r) (rdFootnoteGrid r) (rdFootnotes r) (rdDomains r) (rdDimensions r).
  Definition format_d (langs : list string) (d : d_grid) : d_grid :=
    DGrid (map (format_root langs) (dgRootDomains d)) (dgDRS d).
  Definition format_item (langs : list string) (s : summation_item) : summation_item :=
    SummationItem (siHref s) (siLabel s) (siBalance s) (format_relevant_period strftime_es (siPeriods s) langs)
      (siMembers s) (siVoid s) (siContributing s) (siFacts s) (siFootnoteGrid s) (siFootnotes s).

  (** renderable.go:43-92: what is shown when the goroutines have ended in [c]; a panic in a
      goroutine ends the process, so [p], [d] and [cg] are [Ok] or [Err] *)
  Definition rendered (p : res (p_grid * list string * list string)) (d : res (d_grid * list string * list string))
    (cg : res (list summation_item * list string * list string)) (c : rconf) : grids * list string * list string :=
    (Grids (format_p (final_langs c) (grid_or zero_p p)) (format_d (final_langs c) (grid_or zero_d d))
       (map (format_item (final_langs c)) (grid_or [] cg)),
     final_roles c, final_langs c).
  Definition started (p : res (p_grid * list string * list string)) (d : res (d_grid * list string * list string))
    (cg : res (list summation_item * list string * list string)) : rconf :=
    RConf initial_memory [goroutine p; goroutine d; goroutine cg].
End Formats.
