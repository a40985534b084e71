(** Times, datetimes and time strings.
    /repo/caput/astro/time.py: [unix_to_datetime] (157-179), [datetime_to_unix] (182-208),
    [datetime_to_timestr] (211-231), [timestr_to_datetime] (234-252), [ensure_unix] (296-322),
    [naive_datetime_to_utc] (328-358), [time_of_day] (361-377).

    Python's datetimes are records of their fields, with the offset of the time zone in seconds if
    there is one; [datetime.fromtimestamp], differences of datetimes, [strftime] and
    [strptime] are modelled after CPython for the formats used here.  Numbers are rational, so
    rounding is that of [fromtimestamp] to microseconds only.  Skyfield is installed. *)
From Coq Require Import List Ascii Bool ZArith QArith.
From Verif Require Import PyBase PyStr.
Import ListNotations.
Open Scope list_scope.
Open Scope Z_scope.

Record datetime := Dt { yr : Z; mo : Z; dy : Z; hh : Z; mi : Z; ss : Z; us : Z; tz : option Z }.

(** * The calendar (CPython's _datetimemodule.c) *)
Definition is_leap (y : Z) : bool := (y mod 4 =? 0) && (negb (y mod 100 =? 0) || (y mod 400 =? 0)).
Definition dim (leap : bool) (m : Z) : Z := nth (Z.to_nat m) [0; 31; if leap then 29 else 28; 31; 30; 31; 30; 31; 31; 30; 31; 30; 31] 0.
(** days before month [m], without the leap day *)
Definition dbm (m : Z) : Z := nth (Z.to_nat m) [0; 0; 31; 59; 90; 120; 151; 181; 212; 243; 273; 304; 334] 0.
Definition days_before_year (y : Z) : Z := let y := y - 1 in y * 365 + y / 4 - y / 100 + y / 400.
Definition days_before_month (leap : bool) (m : Z) : Z := dbm m + (if (2 <? m) && leap then 1 else 0).
Definition ymd2ord (y m d : Z) : Z := days_before_year y + days_before_month (is_leap y) m + d.
(** month and day of a day of a year *)
Definition month_day (leap : bool) (n : Z) : Z * Z :=
  let month := Z.shiftr (n + 50) 5 in
  let preceding := days_before_month leap month in
  if n <? preceding then let month := month - 1 in (month, n - (preceding - dim leap month) + 1) else (month, n - preceding + 1).
Definition ord2ymd (n : Z) : Z * Z * Z :=
  let n := n - 1 in
  let n400 := n / 146097 in let n := n mod 146097 in
  let n100 := n / 36524 in let n := n mod 36524 in
  let n4 := n / 1461 in let n := n mod 1461 in
  let n1 := n / 365 in let n := n mod 365 in
  let year := n400 * 400 + 1 + n100 * 100 + n4 * 4 + n1 in
  if (n1 =? 4) || (n100 =? 4) then (year - 1, 12, 31)
  else let leap := (n1 =? 3) && (negb (n4 =? 24) || (n100 =? 3)) in
       (year, fst (month_day leap n), snd (month_day leap n)).
Definition valid (dt : datetime) : bool :=
  (1 <=? yr dt) && (yr dt <=? 9999) && (1 <=? mo dt) && (mo dt <=? 12) && (1 <=? dy dt) && (dy dt <=? dim (is_leap (yr dt)) (mo dt)) &&
  (0 <=? hh dt) && (hh dt <? 24) && (0 <=? mi dt) && (mi dt <? 60) && (0 <=? ss dt) && (ss dt <? 60) && (0 <=? us dt) && (us dt <? 1000000).
(** microseconds since year 1, in the datetime's own time zone *)
Definition local_us (dt : datetime) : Z :=
  ((((ymd2ord (yr dt) (mo dt) (dy dt) * 24 + hh dt) * 60 + mi dt) * 60) + ss dt) * 1000000 + us dt.
Definition epoch_us : Z := 719163 * 86400 * 1000000.
(** [round] to the nearest integer, to the even one between two *)
Definition round_half_even (q : Q) : Z :=
  let n := (Qnum q) / Zpos (Qden q) in let r := 2 * ((Qnum q) mod Zpos (Qden q)) in
  if r <? Zpos (Qden q) then n else if Zpos (Qden q) <? r then n + 1 else if Z.even n then n else n + 1.
(** [datetime.fromtimestamp(t, timezone.utc)] *)
Definition fromtimestamp (t : Q) : res datetime :=
  let u := round_half_even (t * inject_Z 1000000) + epoch_us in
  let day := u / (86400 * 1000000) in let u := u mod (86400 * 1000000) in
  if (day <? 1) || (3652059 <? day) then Err ValueError
  else let '(y, m, d) := ord2ymd day in
       Ok (Dt y m d (u / 3600000000) (u / 60000000 mod 60) (u / 1000000 mod 60) (u mod 1000000) (Some 0)).
(** [(a - b).total_seconds()]; TypeError if only one of them has a time zone *)
Definition diff_seconds (a b : datetime) : res Q :=
  match tz a, tz b with
  | Some x, Some y => Ok ((local_us a - x * 1000000 - (local_us b - y * 1000000)) # 1000000)
  | None, None => Ok ((local_us a - local_us b) # 1000000)
  | _, _ => Err TypeError
  end.

(** * Single times *)
(** Lines 328-358 *)
Definition naive_datetime_to_utc (dt : datetime) : datetime :=
  match tz dt with None => Dt (yr dt) (mo dt) (dy dt) (hh dt) (mi dt) (ss dt) (us dt) (Some 0) | Some _ => dt end.
(** Lines 157-179 *)
Definition unix_to_datetime (t : Q) : res datetime := rbind (fromtimestamp t) (fun dt => Ok (naive_datetime_to_utc dt)).
(** Lines 182-208 *)
Definition datetime_to_unix (dt : datetime) : res Q :=
  let dt := naive_datetime_to_utc dt in
  rbind (fromtimestamp 0) (fun e => diff_seconds dt (naive_datetime_to_utc e)).

(** [strftime]: years are not padded by the C library *)
Definition dchar (n : Z) : ascii := ascii_of_nat (Z.to_nat (48 + n)).
Definition two_digits (n : Z) : str := [dchar (n / 10); dchar (n mod 10)].
Definition year_digits (y : Z) : str :=
  (if 1000 <=? y then [dchar (y / 1000)] else []) ++ (if 100 <=? y then [dchar (y / 100 mod 10)] else []) ++
  (if 10 <=? y then [dchar (y / 10 mod 10)] else []) ++ [dchar (y mod 10)].
(** Lines 211-231 *)
Definition datetime_to_timestr (dt : datetime) : str :=
  year_digits (yr dt) ++ two_digits (mo dt) ++ two_digits (dy dt) ++ ["T"%char] ++
  two_digits (hh dt) ++ two_digits (mi dt) ++ two_digits (ss dt) ++ ["Z"%char].

(** [strptime]: a regular expression with alternatives, tried in order.  A parser gives all
    its matches in order, with what is left of the text. *)
Definition dval (c : ascii) : option Z := let n := Z.of_nat (nat_of_ascii c) in if (48 <=? n) && (n <=? 57) then Some (n - 48) else None.
Definition parser (A : Type) := str -> list (A * str).
Definition seq {A B} (p : parser A) (k : A -> parser B) : parser B := fun s => flat_map (fun x => k (fst x) (snd x)) (p s).
Definition two (ok : Z -> Z -> bool) : parser Z := fun s =>
  match s with
  | a :: b :: r => match dval a, dval b with Some x, Some y => if ok x y then [(10 * x + y, r)] else [] | _, _ => [] end
  | _ => []
  end.
Definition one (ok : Z -> bool) : parser Z := fun s =>
  match s with a :: r => match dval a with Some x => if ok x then [(x, r)] else [] | None => [] end | [] => [] end.
Definition orelse {A} (p q : parser A) : parser A := fun s => p s ++ q s.
Definition p_char (f : ascii -> bool) : parser unit := fun s => match s with a :: r => if f a then [(tt, r)] else [] | [] => [] end.
Definition p_Y : parser Z := seq (two (fun _ _ => true)) (fun c => seq (two (fun _ _ => true)) (fun y s => [(100 * c + y, s)])).
Definition p_m : parser Z := orelse (two (fun x y => (x =? 1) && (y <=? 2))) (orelse (two (fun x y => (x =? 0) && (1 <=? y))) (one (fun x => 1 <=? x))).
Definition p_d : parser Z :=
  orelse (two (fun x y => (x =? 3) && (y <=? 1))) (orelse (two (fun x y => (1 <=? x) && (x <=? 2))) (orelse (two (fun x y => (x =? 0) && (1 <=? y)))
  (orelse (one (fun x => 1 <=? x)) (seq (p_char (ceqb " "%char)) (fun _ => one (fun x => 1 <=? x)))))).
Definition p_H : parser Z := orelse (two (fun x y => (x =? 2) && (y <=? 3))) (orelse (two (fun x y => x <=? 1)) (one (fun _ => true))).
Definition p_M : parser Z := orelse (two (fun x y => x <=? 5)) (one (fun _ => true)).
Definition p_S : parser Z := orelse (two (fun x y => (x =? 6) && (y <=? 1))) (orelse (two (fun x y => x <=? 5)) (one (fun _ => true))).
Definition p_T : parser unit := p_char (fun c => ceqb c "T"%char || ceqb c "t"%char).
Definition p_all : parser datetime :=
  seq p_Y (fun y => seq p_m (fun m => seq p_d (fun d => seq p_T (fun _ => seq p_H (fun h => seq p_M (fun i => seq p_S (fun s r => [(Dt y m d h i s 0 None, r)]))))))).
Definition strptime (s : str) : res datetime :=
  match p_all s with
  | (dt, []) :: _ => if valid dt then Ok dt else Err ValueError
  | _ => Err ValueError
  end.
(** Lines 234-252 *)
Definition timestr_to_datetime (s : str) : res datetime := strptime (firstn 15 s).

(** * Arrays of times *)
Inductive time := TNum (q : Q) | TDt (dt : datetime) | TStr (s : str) | TObj.
(** An array: its shape, whether its type is a number, its elements *)
Record tarray := TArr { shape : list nat; numeric : bool; elems : list time }.
Fixpoint mapM {A B} (f : A -> res B) (l : list A) : res (list B) :=
  match l with [] => Ok [] | x :: l => rbind (f x) (fun y => rbind (mapM f l) (fun ys => Ok (y :: ys))) end.
Definition elem_to_unix (x : time) : res Q := match x with TDt dt => datetime_to_unix dt | _ => Err AttributeError end.
Definition elem_to_datetime (x : time) : res time := match x with TStr s => rbind (timestr_to_datetime s) (fun dt => Ok (TDt dt)) | _ => Err TypeError end.
Definition elem_number (x : time) : res Q := match x with TNum q => Ok q | _ => Err TypeError end.
(** Lines 296-322, for an array that is not empty.  The first element of an array of
    several dimensions is an array. *)
Definition ensure_unix_array (a : tarray) : res (list Q) :=
  let first := match shape a, elems a with [_], x :: _ => Some x | _, _ => None end in
  match first with
  | Some (TDt _) => mapM elem_to_unix (elems a)
  | Some (TStr _) => rbind (mapM elem_to_datetime (elems a)) (mapM elem_to_unix)
  | _ => if numeric a then mapM elem_number (elems a) else Err TypeError
  end.
(** With the decorator [scalarize] (/repo/caput/util/arraytools.py lines 224-291): single times are
    put into arrays; TypeError for arrays without dimension, nothing to do for empty arrays *)
Definition ensure_unix (x : time + tarray) : res (Q + list Q) :=
  match x with
  | inl v => rbind (ensure_unix_array (TArr [1%nat] (match v with TNum _ => true | _ => false end) [v])) (fun l =>
             match l with q :: _ => Ok (inl q) | [] => Err IndexError end)
  | inr a => match shape a with
             | [] => Err TypeError
             | O :: _ => Ok (inr [])
             | _ => rbind (ensure_unix_array a) (fun l => Ok (inr l))
             end
  end.
(** Lines 361-377, for one time *)
Definition time_of_day (v : time) : res Q :=
  rbind (ensure_unix (inl v)) (fun x => match x with
  | inl t => rbind (fromtimestamp t) (fun dt => diff_seconds dt (Dt (yr dt) (mo dt) (dy dt) 0 0 0 0 (tz dt)))
  | inr _ => Err TypeError end).
(** .. and several: [np.vectorize] without [otypes] needs at least one *)
Definition time_of_day_array (l : list time) : res (list Q) :=
  match l with [] => Err ValueError | _ => mapM time_of_day l end.
