(** * GoBase: the fragment of Go's runtime and standard library the model uses.

    No definition in this file models a file of /repo; each comment names the Go
    construct that the definitions of the other files use it for. *)
From Coq Require Export String Ascii List Arith ZArith NArith Lia Bool
  Permutation Sorted.
Export ListNotations.

(** Outcome of a Go function with a trailing [error] result.
    [Panic]: a run-time panic (nil dereference, index or slice out of range,
    failed type assertion, explicit [panic]). *)
Inductive res (A : Type) : Type :=
| Ok (a : A)
| Err (msg : string)
| Panic.
Arguments Ok {A} a.
Arguments Err {A} msg.
Arguments Panic {A}.

Definition bind {A B} (r : res A) (f : A -> res B) : res B :=
  match r with Ok a => f a | Err m => Err m | Panic => Panic end.
Notation "'do' x <- r ; k" := (bind r (fun x => k))
  (at level 200, x pattern, r at level 100, k at level 200).

Fixpoint mapM {A B} (f : A -> res B) (l : list A) : res (list B) :=
  match l with
  | [] => Ok []
  | x :: xs => do y <- f x; do ys <- mapM f xs; Ok (y :: ys)
  end.

(** ** Strings (byte strings, as in Go) *)

Definition nonempty (s : string) : bool :=
  match s with EmptyString => false | _ => true end.

(** Go: [i := strings.IndexRune(s, c)] for an ASCII rune [c], together with the
    slices [s[:i]] and [s[i+1:]]; [None] is [i < 0]. *)
Fixpoint cut (c : ascii) (s : string) : option (string * string) :=
  match s with
  | EmptyString => None
  | String a r =>
      if Ascii.eqb a c then Some (EmptyString, r)
      else match cut c r with
           | Some (b, t) => Some (String a b, t)
           | None => None
           end
  end.

Fixpoint has_char (c : ascii) (s : string) : bool :=
  match s with
  | EmptyString => false
  | String a r => Ascii.eqb a c || has_char c r
  end.

(** Go: [strings.Split(s, string(c))]; never empty. *)
Fixpoint split (c : ascii) (s : string) : list string :=
  match s with
  | EmptyString => [EmptyString]
  | String a r =>
      if Ascii.eqb a c then EmptyString :: split c r
      else match split c r with
           | [] => [String a EmptyString]
           | w :: ws => String a w :: ws
           end
  end.

(** ** sort.SliceStable

    Stable insertion sort with the given [less] function: the documented result
    of [sort.SliceStable] for a strict weak order. *)
Section Sort.
  Context {A : Type} (lt : A -> A -> bool).
  Fixpoint insert (x : A) (l : list A) : list A :=
    match l with
    | [] => [x]
    | y :: t => if lt y x then y :: insert x t else x :: l
    end.
  Fixpoint isort (l : list A) : list A :=
    match l with
    | [] => []
    | x :: t => insert x (isort t)
    end.
End Sort.

(** ** Go maps as association lists with distinct keys *)
Section Map.
  Context {K V : Type} (keq : K -> K -> bool).
  (** [v, found := m[k]] *)
  Fixpoint mget (k : K) (m : list (K * V)) : option V :=
    match m with
    | [] => None
    | (k', v) :: t => if keq k' k then Some v else mget k t
    end.
  (** [m[k] = v] *)
  Fixpoint mset (k : K) (v : V) (m : list (K * V)) : list (K * V) :=
    match m with
    | [] => [(k, v)]
    | (k', v') :: t => if keq k' k then (k', v) :: t else (k', v') :: mset k v t
    end.
End Map.
Notation sget := (mget String.eqb).
Notation sset := (mset String.eqb).

(** The usual Go idiom [occured := map[T]bool{}; for ... if !occured ...]:
    keep the first occurrence of every element. *)
Section Uniq.
  Context {A : Type} (eqb : A -> A -> bool).
  Fixpoint mem (x : A) (l : list A) : bool :=
    match l with [] => false | y :: t => eqb y x || mem x t end.
  Fixpoint uniq_acc (seen : list A) (l : list A) : list A :=
    match l with
    | [] => []
    | x :: t => if mem x seen then uniq_acc seen t else x :: uniq_acc (x :: seen) t
    end.
  Definition uniq (l : list A) : list A := uniq_acc [] l.
End Uniq.

(** ** Decimal printing: Go's [strconv.Itoa]. *)
Definition digit_char (d : N) : ascii := ascii_of_N (48 + d).
Fixpoint dec_pos (fuel : nat) (n : N) (acc : string) : string :=
  match fuel with
  | O => acc
  | S f => let acc' := String (digit_char (n mod 10)%N) acc in
           if (n / 10 =? 0)%N then acc' else dec_pos f (n / 10)%N acc'
  end.
Definition itoa_N (n : N) : string := dec_pos (S (N.to_nat (N.log2 n))) n EmptyString.
Definition itoa (z : Z) : string :=
  match z with
  | Z0 => "0"
  | Zpos p => itoa_N (Npos p)
  | Zneg p => String "-" (itoa_N (Npos p))
  end%string.

(** ** [strconv.Atoi] on a 64-bit platform: optional sign, one or more decimal
    digits, value within int64. *)
Definition is_digit (c : ascii) : bool :=
  (48 <=? N_of_ascii c)%N && (N_of_ascii c <=? 57)%N.
Fixpoint digits_val (acc : N) (s : string) : option N :=
  match s with
  | EmptyString => Some acc
  | String c r => if is_digit c then digits_val (10 * acc + (N_of_ascii c - 48))%N r else None
  end.
Definition int64_ok (z : Z) : bool := ((- 2 ^ 63 <=? z) && (z <=? 2 ^ 63 - 1))%Z.
Definition atoi (s : string) : option Z :=
  let go (neg : bool) (r : string) :=
    match r with
    | EmptyString => None
    | _ => match digits_val 0 r with
           | Some n => let z := if neg then (- Z.of_N n)%Z else Z.of_N n in
                       if int64_ok z then Some z else None
           | None => None
           end
    end in
  match s with
  | EmptyString => None
  | String c r =>
      if Ascii.eqb c "-" then go true r
      else if Ascii.eqb c "+" then go false r
      else go false s
  end%char.

(** ** [strconv.ParseBool]; [None] is the error case. *)
Definition parse_bool (s : string) : option bool :=
  if mem String.eqb s ["1"; "t"; "T"; "true"; "TRUE"; "True"]%string then Some true
  else if mem String.eqb s ["0"; "f"; "F"; "false"; "FALSE"; "False"]%string then Some false
  else None.
