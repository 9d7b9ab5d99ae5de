(** The written forms of dates, times and durations, and what they mean.
    Nothing here mentions the patterns of the program. *)
From Verif Require Import PyBase FormatSpec.
Local Open Scope Z_scope.
Local Notation length := List.length (only parsing).

Definition leap_year (y : Z) : Prop := (4 | y) /\ (~ (100 | y) \/ (400 | y)).
(** a date of the proleptic Gregorian calendar, years 1 to 9999 *)
Definition real_date (y m d : Z) : Prop :=
  1 <= y <= 9999 /\ 1 <= m <= 12 /\ 1 <= d /\
  (In m [1; 3; 5; 7; 8; 10; 12] -> d <= 31) /\
  (In m [4; 6; 9; 11] -> d <= 30) /\
  (m = 2 -> d <= 29 /\ (d = 29 -> leap_year y)).

Section Spec.
  Variable dig : N -> option Z.             (* value of a decimal digit *)
  (** a non-empty row of digits and its value *)
  Inductive numeral : pystr -> Z -> Prop :=
  | numeral_one c d : dig c = Some d -> numeral [c] d
  | numeral_more w n c d : numeral w n -> dig c = Some d -> numeral (w ++ [c]) (10 * n + d).
  (** [k] digits, the first one ASCII *)
  Definition field (k : nat) (w : pystr) (n : Z) : Prop :=
    numeral w n /\ length w = k /\ forall c w', w = c :: w' -> ascii_digit c.
  Definition maybe (sep : string) (w : pystr) : Prop := w = [] \/ w = u sep.

  (** [YYYY-MM-DD], each hyphen optional *)
  Definition written_date (s : pystr) (y m d : Z) : Prop :=
    exists ys h1 ms h2 ds, s = ys ++ h1 ++ ms ++ h2 ++ ds /\
      numeral ys y /\ length ys = 4%nat /\ maybe "-" h1 /\ field 2 ms m /\ maybe "-" h2 /\ field 2 ds d.

  (** [hh:mm:ss] with each colon optional; [cols] counts the colons *)
  Definition written_clock (s : pystr) (cols : nat) (h m sec : Z) : Prop :=
    exists hs c1 ms c2 ss, s = hs ++ c1 ++ ms ++ c2 ++ ss /\
      field 2 hs h /\ maybe ":" c1 /\ field 2 ms m /\ maybe ":" c2 /\ field 2 ss sec /\
      cols = (length c1 + length c2)%nat.
  (** nothing, or a point and digits; [n] is the number the digits write *)
  Definition written_fraction (s : pystr) (n : Z) : Prop :=
    (s = [] /\ n = 0) \/ exists w, s = u "." ++ w /\ numeral w n.
  (** nothing, [z], or [+hh:mm] / [-hh:mm]: offset in minutes *)
  Definition written_zone (s : pystr) (tz : option Z) : Prop :=
    (s = [] /\ tz = None) \/
    ((s = u "z" \/ s = u "Z") /\ tz = Some 0) \/
    exists sign hs ms h m, numeral hs h /\ length hs = 2%nat /\ numeral ms m /\ length ms = 2%nat /\
      ((sign = u "+" /\ tz = Some (60 * h + m)) \/ (sign = u "-" /\ tz = Some (- (60 * h + m)))) /\
      s = sign ++ hs ++ u ":" ++ ms.
  Definition written_time (s : pystr) (cols : nat) (h m sec frac : Z) (tz : option Z) : Prop :=
    exists ck fr zn, s = ck ++ fr ++ zn /\
      written_clock ck cols h m sec /\ written_fraction fr frac /\ written_zone zn tz.
  (** the clocks the pattern lets through: hours below 30, or the leap second *)
  Definition clock_shape (ck : pystr) : Prop :=
    (exists cols h m sec, written_clock ck cols h m sec /\ h < 30 /\ m < 60 /\ sec < 60) \/
    ck = u "23:59:60" \/ ck = u "235960".
  (** a date, nothing or one [t] or white space, a time *)
  Definition separator (s : pystr) : Prop :=
    s = [] \/ s = u "t" \/ s = u "T" \/
    exists c, s = [c] /\ In c ([9; 10; 11; 12; 13; 28; 29; 30; 31; 32; 133; 160; 5760; 8192; 8193; 8194; 8195; 8196; 8197;
                               8198; 8199; 8200; 8201; 8202; 8232; 8233; 8239; 8287; 12288])%N.
  Definition written_datetime (s : pystr) (y mo d : Z) (cols : nat) (h m sec frac : Z) (tz : option Z) : Prop :=
    exists dt sp ti, s = dt ++ sp ++ ti /\ written_date dt y mo d /\ separator sp /\ written_time ti cols h m sec frac tz.
  Definition clock_ok (h m sec : Z) : Prop := 0 <= h <= 23 /\ 0 <= m <= 59 /\ 0 <= sec <= 59.
  Definition zone_ok (tz : option Z) : Prop := forall n, tz = Some n -> -1440 < n < 1440.

  (** ** Durations *)
  Definition counted (letters : pystr) (s : pystr) (n : Z) : Prop :=
    (s = [] /\ n = 0) \/ exists w c, s = w ++ [c] /\ numeral w n /\ In c letters.
  (** seconds may have a fraction; [micros] is the number of microseconds a
      decimal text of seconds stands for *)
  Variable micros : pystr -> Z.
  Definition counted_seconds (s : pystr) (us : Z) : Prop :=
    (s = [] /\ us = 0) \/
    exists w f c n k, s = w ++ f ++ [c] /\ numeral w n /\ written_fraction f k /\ In c (u "sS" ++ [383%N]) /\ us = micros (w ++ f).
  (** [P] weeks [W] days [D] [T] hours [H] minutes [M] seconds [S], each part
      optional, with a digit after [P] or after [PT]; any case *)
  Definition written_duration (s : pystr) (sign weeks days hours minutes us : Z) : Prop :=
    exists sg p wk dy tp, s = sg ++ p ++ wk ++ dy ++ tp /\
      ((sg = [] /\ sign = 1) \/ (sg = u "-" /\ sign = -1)) /\ (p = u "p" \/ p = u "P") /\
      counted (u "wW") wk weeks /\ counted (u "dD") dy days /\
      ((tp = [] /\ hours = 0 /\ minutes = 0 /\ us = 0) \/
       exists t hr mi se, tp = t ++ hr ++ mi ++ se /\ (t = u "t" \/ t = u "T") /\
         counted (u "hH") hr hours /\ counted (u "mM") mi minutes /\ counted_seconds se us) /\
      exists t c r, wk ++ dy ++ tp = t ++ c :: r /\ (t = [] \/ t = u "t" \/ t = u "T") /\ dig c <> None.
End Spec.
(** whole-second [timedelta]s *)
Definition delta_range (secs : Z) : Prop := -999999999 * 86400 <= secs < 1000000000 * 86400.
