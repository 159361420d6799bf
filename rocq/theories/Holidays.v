(** Model of fixedIncome/src/scheduling_tools/holidays.py. *)
From Verif Require Import Base PyDate.

(** schedule_enumerations.py 38-45: [Weekdays] as the numbers of [date.weekday()]. *)
Definition MONDAY := 0. Definition TUESDAY := 1. Definition WEDNESDAY := 2. Definition THURSDAY := 3.
(** schedule_enumerations.py 38-45 *)
Definition FRIDAY := 4. Definition SATURDAY := 5. Definition SUNDAY := 6.

(** holidays.py 16-19: NamedTuple Holiday.  [Months] members are replaced by their numbers. *)
Record Holiday := { h_month : Z; h_day : Z; h_adjust : date -> res date }.

(** A holiday calendar is a dict from names to holidays, in insertion order. *)
Definition calendar := list (string * Holiday).

(** holidays.py 23-42 *)
Definition us_federal_holiday_adjustment (d : date) : res date :=
  if weekday d =? SATURDAY then add_days d (-1)
  else if weekday d =? SUNDAY then add_days d 1
  else Ok d.

(** holidays.py 45-61 *)
Definition get_next_weekday (d : date) (w : Z) : res date :=
  if weekday d =? w then Ok d
  else add_days d ((w - weekday d) mod 7).

(** holidays.py 65-77 *)
Definition US_FEDERAL_HOLIDAYS : calendar :=
  [ ("NewYears"%string,     Build_Holiday 1 1 us_federal_holiday_adjustment);
    ("MLK"%string,          Build_Holiday 1 17 us_federal_holiday_adjustment);
    ("Presidents"%string,   Build_Holiday 2 15 (fun d => get_next_weekday d MONDAY));
    ("Memorial"%string,     Build_Holiday 5 30 us_federal_holiday_adjustment);
    ("Juneteenth"%string,   Build_Holiday 6 19 us_federal_holiday_adjustment);
    ("Independence"%string, Build_Holiday 7 4 us_federal_holiday_adjustment);
    ("Labor"%string,        Build_Holiday 9 1 (fun d => get_next_weekday d MONDAY));
    ("Columbus"%string,     Build_Holiday 10 8 (fun d => get_next_weekday d MONDAY));
    ("Veterans"%string,     Build_Holiday 11 11 us_federal_holiday_adjustment);
    ("Thanksgiving"%string, Build_Holiday 11 22 (fun d => get_next_weekday d THURSDAY));
    ("Christmas"%string,    Build_Holiday 12 25 us_federal_holiday_adjustment) ].

(** dict lookup *)
Fixpoint lookup {A} (k : string) (l : list (string * A)) : option A :=
  match l with
  | [] => None
  | (k', a) :: l => if String.eqb k k' then Some a else lookup k l
  end.

(** range(a, b+1) *)
Definition range_incl (a b : Z) : list Z :=
  List.map (fun i => a + Z.of_nat i) (seq 0 (Z.to_nat (b - a + 1))).

(** holidays.py 80-101; the set is a list of which only membership matters. *)
Definition generate_holiday_dates (name : string) (from_year to_year : Z) (cal : calendar) : res (list date) :=
  match lookup name cal with
  | None => Err KeyError
  | Some h => mapM (fun y => do d <- mk_date y (h_month h) (h_day h); h_adjust h d) (range_incl from_year to_year)
  end.

(** holidays.py 104-115 *)
Definition generate_all_holidays (from_year to_year : Z) (cal : calendar) : res (list date) :=
  do ls <- mapM (fun n => generate_holiday_dates n from_year to_year cal) (List.map fst cal);
  Ok (List.concat ls).
