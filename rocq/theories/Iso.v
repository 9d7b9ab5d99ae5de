(** [jsoned/iso_datetime.py] and the parts of [datetime] it relies on. *)
From Verif Require Import PyBase Regex.
Local Open Scope Z_scope.

(** What is outside: which characters are decimal digits and their values
    (unicode category Nd, used by [\d] and [int()]), and [float()] together with
    the rounding of [timedelta(seconds=...)] to microseconds. *)
Record iso_env := IsoEnv {
  digit : N -> option Z;
  float_us : pystr -> Z          (* microseconds in [float(text)] seconds *)
}.
(** the facts about digits the proofs use *)
Definition digits_ok (X : iso_env) : Prop :=
  (forall c, is_ascii_digit c = true -> digit X c = Some (Z.of_N c - 48)) /\
  (forall c, (c < 128)%N -> is_ascii_digit c = false -> digit X c = None) /\
  (forall c v, digit X c = Some v -> 0 <= v <= 9).

Section Iso.
  Variable X : iso_env.
  Definition is_digit (c : N) : bool := match digit X c with Some _ => true | None => false end.
  (** [int(w)] of a text of digits (Python's limit of 4300 digits is left out) *)
  Definition int_of (w : pystr) : Z :=
    fold_left (fun a c => 10 * a + match digit X c with Some v => v | None => 0 end) w 0.

  (** ** [datetime.date], [datetime.time], [datetime.timezone] constructors *)
  Definition leap (y : Z) : bool := (y mod 4 =? 0) && (negb (y mod 100 =? 0) || (y mod 400 =? 0)).
  Definition month_days (y m : Z) : Z :=
    if m =? 2 then (if leap y then 29 else 28)
    else if (m =? 4) || (m =? 6) || (m =? 9) || (m =? 11) then 30 else 31.
  Record pdate := PDate { d_y : Z; d_m : Z; d_d : Z }.
  Definition mk_date (y m d : Z) : res pdate :=
    if (1 <=? y) && (y <=? 9999) && (1 <=? m) && (m <=? 12) && (1 <=? d) && (d <=? month_days y m)
    then Ok (PDate y m d) else Raise EValue.
  (** [t_tz]: offset in minutes *)
  Record ptime := PTime { t_h : Z; t_m : Z; t_s : Z; t_us : Z; t_tz : option Z }.
  Definition mk_time (h m s us : Z) (tz : option Z) : res ptime :=
    if (0 <=? h) && (h <=? 23) && (0 <=? m) && (m <=? 59) && (0 <=? s) && (s <=? 59) && (0 <=? us) && (us <=? 999999)
    then Ok (PTime h m s us tz) else Raise EValue.
  (** [timezone(timedelta(minutes=n))]: strictly between -24h and 24h *)
  Definition mk_zone (n : Z) : res Z := if (-1440 <? n) && (n <? 1440) then Ok n else Raise EValue.

  (** ** The patterns, lines 4-17 *)
  Definition d1 : regex := Cls is_digit.
  Definition hyphen : regex := opt (Cls (one (chr "-"))).
  Definition colon : regex := opt (Cls (one (chr ":"))).
  Definition rng (a b : N) : regex := Cls (between a b).
  Definition date_body : list regex :=
    [Grp 1 (times 4 d1); hyphen; Grp 2 (Seq (rng 48 49) d1); hyphen; Grp 3 (Seq (rng 48 51) d1)].
  Definition lits (s : string) : regex := seqs (map (fun c => Cls (one c)) (u s)).
  Definition clock : regex :=
    Alt (seqs [rng 48 50; d1; colon; rng 48 53; d1; colon; rng 48 53; d1])
        (Alt (lits "23:59:60") (lits "235960")).
  Definition fraction : regex := Seq (Cls (one (chr "."))) (plus d1).
  Definition zone : regex :=
    Alt (Cls (lit_i (chr "z")))
        (seqs [Cls (among (u "+-")); times 2 d1; Cls (one (chr ":")); times 2 d1]).
  Definition date_regex : regex := Seq (seqs date_body) Eol.
  Definition datetime_regex : regex :=
    Seq (seqs (date_body ++ [opt (Cls (fun c => lit_i (chr "t") c || is_space c)); Grp 4 clock;
                             opt (Grp 5 fraction); opt (Grp 6 zone)])) Eol.
  Definition time_regex : regex := Seq (seqs [Grp 1 clock; opt (Grp 2 fraction); opt (Grp 3 zone)]) Eol.
  Definition unit_group (i : nat) (num : regex) (letter : string) : regex :=
    opt (Seq (Grp i num) (Cls (lit_i (chr letter)))).
  Definition number : regex := plus d1.
  Definition duration_units : regex :=
    seqs [unit_group 2 number "w"; unit_group 3 number "d";
          opt (seqs [Cls (lit_i (chr "t")); unit_group 4 number "h"; unit_group 5 number "m";
                     unit_group 6 (Seq number (opt fraction)) "s"])].
  Definition duration_regex : regex :=
    seqs [Grp 1 (opt (Cls (one (chr "-")))); Cls (lit_i (chr "p"));
          Look (Alt d1 (Seq (Cls (lit_i (chr "t"))) d1)); Seq duration_units Eol].

  (** group text, [""] when it took no part ([findall]) *)
  Definition grp (i : nat) (cs : caps) : pystr := match group i cs with Some w => w | None => [] end.

  (** [parse_iso_date], lines 52-57.  [findall(value)[0]] is the match at the
      start of the text. *)
  Definition parse_iso_date (s : pystr) : res pdate :=
    match re_match date_regex s with
    | None => Raise EValue
    | Some cs => mk_date (int_of (grp 1 cs)) (int_of (grp 2 cs)) (int_of (grp 3 cs))
    end.

  (** ["".join] over consecutive pairs, lines 30, 97 *)
  Fixpoint pairs (w : pystr) : list pystr :=
    match w with
    | a :: b :: w' => [a; b] :: pairs w'
    | _ => []
    end.
  Definition clock_parts (w : pystr) : list pystr :=
    if str_in (u ":") w then split (chr ":") w else pairs w.
  (** lines 32-39, 105-113; [w] is [""] when there is no zone *)
  Definition zone_of (w : pystr) : res (option Z) :=
    match w with
    | [] => Ok None
    | c :: w' =>
        if match w' with [] => lit_i (chr "z") c | _ => false end then Ok (Some 0)
        else
          let sign := if N.eqb c (chr "+") then 1 else -1 in
          match split (chr ":") w' with
          | [h; m] => n <- mk_zone (int_of h * sign * 60 + int_of m * sign) ;; Ok (Some n)
          | _ => Raise EValue
          end
    end.
  Definition part (l : list pystr) (i : nat) : res Z :=
    match nth_error l i with Some w => Ok (int_of w) | None => Raise EIndex end.

  (** [parse_iso_datetime], lines 20-49 (the fraction, group 5, is not used) *)
  Definition parse_iso_datetime (s : pystr) : res (pdate * ptime) :=
    match re_match datetime_regex s with
    | None => Raise EValue
    | Some cs =>
        let tp := clock_parts (grp 4 cs) in
        tz <- zone_of (grp 6 cs) ;;
        h <- part tp 0 ;; m <- part tp 1 ;; sec <- part tp 2 ;;
        d <- mk_date (int_of (grp 1 cs)) (int_of (grp 2 cs)) (int_of (grp 3 cs)) ;;
        t <- mk_time h m sec 0 tz ;;
        Ok (d, t)
    end.

  (** [parse_iso_time], lines 88-121; [fullmatch] may return [None] although
      [match] did not. *)
  Definition parse_iso_time (s : pystr) : res ptime :=
    match re_match time_regex s with
    | None => Raise EValue
    | Some _ =>
        match re_fullmatch time_regex s with
        | None => Raise EAttr
        | Some cs =>
            let tp := clock_parts (grp 1 cs) in
            let us := match group 2 cs with Some w => int_of (tl w) | None => 0 end in
            tz <- zone_of (grp 3 cs) ;;
            h <- part tp 0 ;; m <- part tp 1 ;; sec <- part tp 2 ;;
            mk_time h m sec us tz
        end
    end.

  (** ** Durations: a [timedelta] is its number of microseconds *)
  Definition us_per_day : Z := 86400 * 1000000.
  (** [timedelta(...)]: [OverflowError] outside +-999999999 days *)
  Definition mk_delta (us : Z) : res Z :=
    if (-999999999 * us_per_day <=? us) && (us <? (999999999 + 1) * us_per_day) then Ok us else Raise EOverflow.
  Definition num_group (i : nat) (cs : caps) : Z :=
    match group i cs with Some w => int_of w | None => 0 end.
  (** [parse_iso_duration], lines 60-85.  Simplification: the parts are added
      exactly; [timedelta] does the same except for the float part, whose
      rounding is in [float_us]. *)
  Definition parse_iso_duration (s : pystr) : res Z :=
    match re_match duration_regex s with
    | None => Raise EValue
    | Some _ =>
        match re_fullmatch duration_regex s with
        | None => Raise EAttr
        | Some cs =>
            let sign := match grp 1 cs with [] => 1 | _ => -1 end in
            let secs := match group 6 cs with Some w => float_us X w | None => 0 end in
            mk_delta (sign * ((((num_group 2 cs * 7 + num_group 3 cs) * 24 + num_group 4 cs) * 60 + num_group 5 cs)
                              * 60 * 1000000 + secs))
        end
    end.

  (** [timedelta_to_iso_duration], lines 124-156, for a [timedelta] of [secs]
      whole seconds: then every float in the function is a whole number below
      2^53, so its arithmetic is exact. *)
  Definition int_str (z : Z) : pystr := nat_str (Z.to_nat z).        (* [str(z)], z >= 0 *)
  Definition unit_text (z : Z) (letter : string) : pystr := if z =? 0 then [] else int_str z ++ u letter.
  Definition iso_duration_text (secs : Z) : pystr :=
    let sign := if secs <? 0 then u "-" else [] in
    let a := Z.abs secs in
    let (minutes, seconds) := (a / 60, a mod 60) in
    let (hours, minutes) := (minutes / 60, minutes mod 60) in
    let (days, hours) := (hours / 24, hours mod 24) in
    let (weeks, days) := (days / 7, days mod 7) in
    let time := unit_text hours "H" ++ unit_text minutes "M" ++ unit_text seconds "S" in
    sign ++ u "P" ++ unit_text weeks "W" ++ unit_text days "D" ++
    (match time with [] => [] | _ => u "T" ++ time end).
End Iso.
