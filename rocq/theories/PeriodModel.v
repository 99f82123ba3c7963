(** * PeriodModel: pkg/renderables/formatPeriod.go and the period labels of english.go,
    spanish.go and contexts.go *)
From Verif Require Import GoBase InstanceModel LabelModel.
Local Open Scope string_scope.

(** ** Calendar dates

    A time.Time at midnight UTC, as [time.Parse("2006-01-02", _)] returns it, is a
    date of the proleptic Gregorian calendar. *)
Record date := Date { dYear : Z; dMonth : Z; dDay : Z }.
Definition leap (y : Z) : bool := ((y mod 4 =? 0) && (negb (y mod 100 =? 0) || (y mod 400 =? 0)))%Z.
(** time.daysIn *)
Definition days_in (y m : Z) : Z :=
  (if m =? 2 then if leap y then 29 else 28
   else if (m =? 4) || (m =? 6) || (m =? 9) || (m =? 11) then 30 else 31)%Z.
(** days from 0000-01-01 to the first day of the year, and of the month *)
Definition year_start (y : Z) : Z := (365 * y + (y + 3) / 4 - (y + 99) / 100 + (y + 399) / 400)%Z.
Fixpoint month_start (y : Z) (k : nat) : Z :=
  match k with O => 0 | S j => month_start y j + days_in y (Z.of_nat k) end%Z.
(** the day number: time differences are differences of it *)
Definition day_number (d : date) : Z :=
  (year_start (dYear d) + month_start (dYear d) (Z.to_nat (dMonth d - 1)) + (dDay d - 1))%Z.
(** adding 24 hours *)
Definition next_day (d : date) : date :=
  if (dDay d <? days_in (dYear d) (dMonth d))%Z then Date (dYear d) (dMonth d) (dDay d + 1)
  else if (dMonth d <? 12)%Z then Date (dYear d) (dMonth d + 1) 1
  else Date (dYear d + 1) 1 1.

(** [time.Parse("2006-01-02", s)]: four digits, '-', two digits, '-', two digits,
    nothing else; month and day in range *)
Definition parse_digits (s : string) : option Z :=
  match s with
  | "" => None
  | _ => match digits_val 0 s with Some n => Some (Z.of_N n) | None => None end
  end.
Definition parse_date (s : string) : option date :=
  match s with
  | String y1 (String y2 (String y3 (String y4 (String h1 (String m1 (String m2 (String h2 (String d1 (String d2 "")))))))))
    =>
      if Ascii.eqb h1 "-" && Ascii.eqb h2 "-" then
        match parse_digits (String y1 (String y2 (String y3 (String y4 "")))),
              parse_digits (String m1 (String m2 "")), parse_digits (String d1 (String d2 "")) with
        | Some y, Some m, Some d =>
            if ((1 <=? m) && (m <=? 12) && (1 <=? d) && (d <=? days_in y m))%Z then Some (Date y m d) else None
        | _, _, _ => None
        end
      else None
  | _ => None
  end.

(** [t.Format("January 2, 2006")] *)
Definition month_name (m : Z) : string :=
  nth (Z.to_nat (m - 1))
    ["January"; "February"; "March"; "April"; "May"; "June"; "July"; "August"; "September"; "October"; "November"; "December"] "".
(** the year has at least four digits *)
Fixpoint pad (n : nat) (s : string) : string :=
  match n with O => s | S k => if (String.length s <? n)%nat then String "0" (pad k s) else s end.
Definition format_us (d : date) : string :=
  month_name (dMonth d) ++ " " ++ itoa (dDay d) ++ ", " ++ pad 4 (itoa (dYear d)).

(** ** formatPeriod.go *)

(** formatPeriod.go:80-89: the loop; [fuel] bounds the iterations *)
Fixpoint month_loop (fuel : nat) (start end_ : date) (month months : Z) : Z :=
  match fuel with
  | O => months
  | S f => if (day_number start <? day_number end_)%Z then
             let start' := next_day start in
             let months' := if (dMonth start' =? month)%Z then months else (months + 1)%Z in
             month_loop f start' end_ (dMonth start') months'
           else months
  end.
(** formatPeriod.go:71-90 [monthCount]; [days] is computed in floating point from whole
    hours, which is exact here. Every iteration brings [start] one day closer. *)
Definition month_count (start end_ : date) : Z :=
  let days := (day_number end_ - day_number start)%Z in
  if (days <? 30)%Z then 0%Z
  else month_loop (S (Z.to_nat days)) start end_ (dMonth start) 1.

(** formatPeriod.go:41-47 *)
Definition default_date (start end_ : string) : string :=
  if nonempty start then start ++ "/" ++ end_ else end_.

Section Formats.
  (** lctime.StrftimeLoc("es_ES", "%d %B %Y", t) (external): the text, or an error *)
  Variable strftime_es : date -> option string.

  (** english.go:11-35 [formatEnglishDates] *)
  Definition format_english_dates (start end_ : string) : string :=
    match parse_date end_ with
    | None => default_date start end_
    | Some e =>
        let date := format_us e in
        if nonempty start then
          match parse_date start with
          | None => default_date start end_
          | Some s =>
              let months := month_count s e in
              if (months <? 1)%Z then default_date start end_
              else if (months =? 1)%Z then "1 month ended " ++ date
              else itoa months ++ " months ended " ++ date
          end
        else "as of " ++ date
    end.
  (** spanish.go:12-38 [formatSpanishDates] *)
  Definition format_spanish_dates (start end_ : string) : string :=
    match parse_date end_ with
    | None => default_date start end_
    | Some e =>
        match strftime_es e with
        | None => default_date start end_
        | Some date =>
            if nonempty start then
              match parse_date start with
              | None => default_date start end_
              | Some s =>
                  let months := month_count s e in
                  if (months <? 1)%Z then default_date start end_
                  else if (months =? 1)%Z then "un mes terminado al " ++ date
                  else itoa months ++ " meses terminados al " ++ date
              end
            else "al " ++ date
        end
    end.
  (** formatPeriod.go:50-69 [formatDate] *)
  Definition format_date (lang date : string) : string :=
    let '(start, end_) := match cut "/" date with None => ("", date) | Some (a, b) => (a, b) end in
    if String.eqb lang PureLabel then date
    else if String.eqb lang English then format_english_dates start end_
    else if String.eqb lang Español then format_spanish_dates start end_
    else date.
  (** formatPeriod.go:22-35: one header; the map is updated in place, so the headers of the
      grids change although the loops of formatPeriod (11-16) assign to copies *)
  Definition format_header (langs : list string) (ctx : language_pack) : language_pack :=
    match sget PureLabel ctx with
    | None => ctx
    | Some pure =>
        fold_left (fun m lang => if String.eqb lang PureLabel then m else sset lang (format_date lang pure) m) langs ctx
    end.
  (** formatPeriod.go:20-38 [formatRelevantPeriod] *)
  Definition format_relevant_period (headers : list language_pack) (langs : list string) : list language_pack :=
    map (format_header langs) headers.

  (** contexts.go:93-103 [periodString] *)
  Definition period_string (c : context) : language_pack :=
    [(PureLabel,
      if nonempty (ctxEnd c) && nonempty (ctxStart c) then ctxStart c ++ "/" ++ ctxEnd c
      else ctxInstant c)].
  (** contexts.go:126-142 [appendLanguagePackFromPeriod] *)
  Definition append_period_langs (m : language_pack) (labels : label_pack) (start end_ : string) : language_pack :=
    fold_left (fun m lang =>
      if String.eqb lang English then sset English (format_english_dates start end_) m
      else if String.eqb lang Español then sset Español (format_spanish_dates start end_) m
      else m) (flat_map (fun kv => map fst (snd kv)) labels) m.
  (** contexts.go:105-124 [periodMultilingualString] *)
  Definition period_multilingual_string (labels : label_pack) (c : context) : language_pack :=
    if nonempty (ctxEnd c) && nonempty (ctxStart c) then
      let s := ctxStart c ++ "/" ++ ctxEnd c in
      append_period_langs [(PureLabel, s); (BriefLabel, s)] labels (ctxStart c) (ctxEnd c)
    else if nonempty (ctxInstant c) then
      append_period_langs [(PureLabel, ctxInstant c); (BriefLabel, ctxInstant c)] labels "" (ctxInstant c)
    else [(PureLabel, "")].
End Formats.
