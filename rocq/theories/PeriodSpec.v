(** * PeriodSpec: calendar durations and period labels *)
From Coq Require Import String Ascii List ZArith.
From Verif Require Import GoSpec InstanceSpec PeriodModel.
Import ListNotations.
Local Open Scope string_scope.

(** ** The calendar *)
Definition leap_year (y : Z) : Prop := ((4 | y) /\ (~ (100 | y) \/ (400 | y)))%Z.
(** [n] is the number of days of a month *)
Inductive month_length (y : Z) : Z -> Z -> Prop :=
| ml_31 m : In m [1; 3; 5; 7; 8; 10; 12]%Z -> month_length y m 31
| ml_30 m : In m [4; 6; 9; 11]%Z -> month_length y m 30
| ml_29 : leap_year y -> month_length y 2 29
| ml_28 : ~ leap_year y -> month_length y 2 28.
Definition valid_date (d : date) : Prop :=
  (1 <= dMonth d <= 12 /\ 1 <= dDay d)%Z /\ exists n, month_length (dYear d) (dMonth d) n /\ (dDay d <= n)%Z.
Inductive day_after : date -> date -> Prop :=
| da_day y m d n : month_length y m n -> (d < n)%Z -> day_after (Date y m d) (Date y m (d + 1))
| da_month y m n : (m < 12)%Z -> month_length y m n -> day_after (Date y m n) (Date y (m + 1) 1)
| da_year y : day_after (Date y 12 31) (Date (y + 1) 1 1).
(** [e] is [n] days after [s] *)
Inductive days_later : nat -> date -> date -> Prop :=
| dl_zero d : days_later 0 d d
| dl_more n s m e : days_later n s m -> day_after m e -> days_later (S n) s e.

(** ** Dates as text *)
Definition digits_of (s : string) (len : nat) (n : Z) : Prop := String.length s = len /\ numeral s n.
(** ISO 8601 calendar date *)
Definition is_date (s : string) (d : date) : Prop :=
  exists y m a, s = y ++ "-" ++ m ++ "-" ++ a /\ digits_of y 4 (dYear d) /\ digits_of m 2 (dMonth d) /\
    digits_of a 2 (dDay d) /\ valid_date d.
(** decimal text without leading zeros *)
Definition decimal (s : string) (n : Z) : Prop := numeral s n /\ (s = "0" \/ forall r, s <> "0" ++ r).
(** e.g. December 31, 2019 *)
Definition us_date (s t : string) : Prop :=
  exists y m a d n name, s = y ++ "-" ++ m ++ "-" ++ a /\ is_date s d /\ String.length y = 4 /\
    nth_error ["January"; "February"; "March"; "April"; "May"; "June"; "July"; "August"; "September"; "October";
               "November"; "December"] (Z.to_nat (dMonth d - 1)) = Some name /\
    decimal n (dDay d) /\ t = name ++ " " ++ n ++ ", " ++ y.

(** ** Period labels *)
(** the calendar months touched by a duration of at least thirty days *)
Definition months_of (s e : date) (k : Z) : Prop :=
  exists n, days_later n s e /\ (30 <= n)%nat /\ k = (12 * (dYear e - dYear s) + (dMonth e - dMonth s) + 1)%Z.
(** a duration with its two dates *)
Definition duration (label start end_ : string) : Prop := label = start ++ "/" ++ end_ /\ free_of "/" start /\ start <> "".

Inductive shown (instant one many : string) (text : string -> string -> Prop) : string -> string -> Prop :=
| sh_instant s d t : is_date s d -> text s t -> shown instant one many text s (instant ++ t)
| sh_one l a b s e t : duration l a b -> is_date a s -> is_date b e -> text b t -> months_of s e 1 ->
    shown instant one many text l (one ++ t)
| sh_many l a b s e k n t : duration l a b -> is_date a s -> is_date b e -> text b t -> months_of s e k -> (1 < k)%Z ->
    decimal n k -> shown instant one many text l (n ++ many ++ t)
| sh_asis l : (forall d t, is_date l d -> ~ text l t) ->
    (forall a b s e k t, duration l a b -> is_date a s -> is_date b e -> text b t -> ~ months_of s e k) ->
    shown instant one many text l l.
Definition shown_english := shown "as of " "1 month ended " " months ended " us_date.
Definition shown_spanish (es : string -> string -> Prop) := shown "al " "un mes terminado al " " meses terminados al " es.
