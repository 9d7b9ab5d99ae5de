(** The parsers of Python's standard library that the format tests call
    (format_validators.py:45-50, 148-188, 230-235), written from CPython 3.11:
    Lib/ipaddress.py, Lib/uuid.py, Lib/base64.py, Modules/binascii.c,
    Objects/longobject.c, Modules/_decimal/_decimal.c. *)
From Verif Require Import PyBase PyVal Regex Iso Formats.
Local Open Scope nat_scope.
Local Notation length := List.length (only parsing).

Definition null (w : pystr) : bool := match w with [] => true | _ => false end.
Definition is_hex (c : N) : bool := is_ascii_digit c || between 65 70 c || between 97 102 c.

(** ** [IPv4Address]; AddressValueError is [EValue] *)
(** [_parse_octet], ipaddress.py:1214-1247 *)
Definition parse_octet (w : pystr) : res N :=
  if null w then Raise EValue
  else if negb (forallb is_ascii_digit w) then Raise EValue
  else if 3 <? length w then Raise EValue
  else if negb (str_eqb w (u "0")) && startswith (u "0") w then Raise EValue
  else let n := fold_left (fun a c => 10 * a + (c - 48))%N w 0%N in
       if (255 <? n)%N then Raise EValue else Ok n.
(** [_BaseV4._ip_int_from_string], lines 1188-1211 *)
Definition v4_of_text (s : pystr) : res N :=
  if null s then Raise EValue
  else let octets := split 46%N s in
       if negb (length octets =? 4) then Raise EValue
       else ns <- map_res parse_octet octets ;; Ok (fold_left (fun a n => 256 * a + n)%N ns 0%N).
(** [IPv4Address(text)], lines 1316-1319 *)
Definition ipv4_text (s : pystr) : res N :=
  if existsb (N.eqb 47) s then Raise EValue else v4_of_text s.

(** ** [IPv6Address] *)
(** ["%x" % n] *)
Fixpoint hex_chars (d : Hexadecimal.uint) : pystr :=
  match d with
  | Hexadecimal.Nil => []
  | Hexadecimal.D0 d => 48%N :: hex_chars d | Hexadecimal.D1 d => 49%N :: hex_chars d
  | Hexadecimal.D2 d => 50%N :: hex_chars d | Hexadecimal.D3 d => 51%N :: hex_chars d
  | Hexadecimal.D4 d => 52%N :: hex_chars d | Hexadecimal.D5 d => 53%N :: hex_chars d
  | Hexadecimal.D6 d => 54%N :: hex_chars d | Hexadecimal.D7 d => 55%N :: hex_chars d
  | Hexadecimal.D8 d => 56%N :: hex_chars d | Hexadecimal.D9 d => 57%N :: hex_chars d
  | Hexadecimal.Da d => 97%N :: hex_chars d | Hexadecimal.Db d => 98%N :: hex_chars d
  | Hexadecimal.Dc d => 99%N :: hex_chars d | Hexadecimal.Dd d => 100%N :: hex_chars d
  | Hexadecimal.De d => 101%N :: hex_chars d | Hexadecimal.Df d => 102%N :: hex_chars d
  end.
Definition hex_of (n : N) : pystr := hex_chars (N.to_hex_uint n).
(** [_parse_hextet], lines 1756-1780; the value is not used.  [int("", 16)]
    raises. *)
Definition parse_hextet (w : pystr) : res unit :=
  if negb (forallb is_hex w) then Raise EValue
  else if 4 <? length w then Raise EValue
  else if null w then Raise EValue else Ok tt.
(** the positions of the empty parts, the two ends apart *)
Definition gaps (parts : list pystr) : list nat :=
  filter (fun i => null (nth i parts [])) (seq 1 (length parts - 2)).
(** [_BaseV6._ip_int_from_string], lines 1652-1753, without the value: the
    second half, on the parts between colons *)
Definition v6_parts (parts : list pystr) : res unit :=
  if 9 <? length parts then Raise EValue
  else
    '(hi, lo) <-
      match gaps parts with
      | [] =>
          if negb (length parts =? 8) then Raise EValue
          else if null (hd [] parts) then Raise EValue
          else if null (last parts []) then Raise EValue
          else Ok (length parts, 0)
      | [i] =>
          hi <- (if null (hd [] parts) then if i - 1 =? 0 then Ok (i - 1) else Raise EValue else Ok i) ;;
          lo <- (let k := length parts - i - 1 in
                 if null (last parts []) then if k - 1 =? 0 then Ok (k - 1) else Raise EValue else Ok k) ;;
          if 8 <=? hi + lo then Raise EValue else Ok (hi, lo)
      | _ => Raise EValue
      end ;;
    _ <- for_each parse_hextet (firstn hi parts) ;;
    for_each parse_hextet (skipn (length parts - lo) parts).
(** the first half: an IPv4 address at the end stands for two parts *)
Definition v6_of_text (s : pystr) : res unit :=
  if null s then Raise EValue
  else
    let parts := split 58%N s in
    if length parts <? 3 then Raise EValue
    else if existsb (N.eqb 46) (last parts [])
    then n <- ipv4_text (last parts []) ;;
         v6_parts (removelast parts ++ [hex_of (n / 65536 mod 65536)%N; hex_of (n mod 65536)%N])
    else v6_parts parts.
(** [s.partition("%")]: the text before the first percent sign, and what comes
    after it, if there is one *)
Fixpoint partition (c : N) (s : pystr) : pystr * option pystr :=
  match s with
  | [] => ([], None)
  | x :: s' => if N.eqb x c then ([], Some s') else let '(a, b) := partition c s' in (x :: a, b)
  end.
(** [IPv6Address(text)], lines 1889-1906, 1956-1961 *)
Definition ipv6_text (s : pystr) : res unit :=
  if existsb (N.eqb 47) s then Raise EValue
  else match partition 37%N s with
       | (a, None) => v6_of_text a
       | (a, Some z) => if null z || existsb (N.eqb 37) z then Raise EValue else v6_of_text a
       end.

(** ** [UUID(text)], uuid.py:174-181 *)
(** [s.lstrip], [s.strip] of the given characters *)
Fixpoint lstrip (p : N -> bool) (s : pystr) : pystr :=
  match s with c :: s' => if p c then lstrip p s' else s | [] => [] end.
Definition strip (p : N -> bool) (s : pystr) : pystr := rev (lstrip p (rev (lstrip p s))).
(** [Py_ISSPACE] *)
Definition c_space (c : N) : bool := between 9 13 c || one 32 c.
(** longobject.c, [long_from_binary_base] on: hexadecimal digits with single
    underscores between them, then white space; [prev]: the last character read *)
Fixpoint hex_tail (prev : option N) (s : pystr) : bool :=
  match s with
  | [] => match prev with Some p => negb (one 95 p) | None => false end
  | c :: s' =>
      if is_hex c then hex_tail (Some c) s'
      else if one 95 c then match prev with Some p => if one 95 p then false else hex_tail (Some c) s' | None => false end
      else match prev with Some p => negb (one 95 p) && forallb c_space s | None => false end
  end.
(** [int(text, 16)] does not raise: longobject.c, [PyLong_FromString].  A minus
    sign cannot occur here. *)
Definition no_sign (s : pystr) : pystr := match s with c :: t => if one 43 c then t else s | [] => [] end.
Definition no_prefix (s : pystr) : pystr :=
  match s with
  | c :: x :: t => if one 48 c && (one 120 x || one 88 x) then match t with y :: t' => if one 95 y then t' else t | [] => [] end else s
  | _ => s
  end.
Definition int16_ok (s : pystr) : bool := hex_tail None (no_prefix (no_sign (lstrip c_space s))).
Section Digits.
  Variable X : iso_env.
  (** [_PyUnicode_TransformDecimalAndSpaceToASCII]: a text with other than ASCII
      characters has its spaces and digits replaced; "?" for the rest *)
  Definition as_ascii (c : N) : N :=
    if (c <? 127)%N then c else if is_space c then 32%N
    else match digit X c with Some d => (48 + Z.to_N d)%N | None => 63%N end.
  Definition to_ascii (s : pystr) : pystr := if forallb (fun c => N.ltb c 128) s then s else map as_ascii s.
  Definition brace (c : N) : bool := one 123 c || one 125 c.
  Definition uuid_hex (s : pystr) : pystr :=
    replace (u "-") [] (strip brace (replace (u "uuid:") [] (replace (u "urn:") [] s))).
  Definition uuid_text (s : pystr) : bool :=
    let h := uuid_hex s in (length h =? 32) && int16_ok (to_ascii h).

  (** ** [Decimal(text)], finite: [_decimal.c], [numeric_as_ascii], then
      [mpd_qset_string_exact] *)
  Definition numeric_ascii (s : pystr) : pystr :=
    map (fun c => if between 1 127 c then c else as_ascii c)
      (filter (fun c => negb (one 95 c)) (strip is_space s)).
  Fixpoint span (p : N -> bool) (s : pystr) : pystr * pystr :=
    match s with
    | c :: s' => if p c then let '(a, b) := span p s' in (c :: a, b) else ([], s)
    | [] => ([], [])
    end.
  Definition minus (s : pystr) : bool := match s with c :: _ => one 45 c | [] => false end.
  Definition sign_off (s : pystr) : pystr := match s with c :: t => if one 43 c || one 45 c then t else s | [] => [] end.
  Definition nat_of_digits (w : pystr) : Z := Z.of_N (fold_left (fun a c => 10 * a + (c - 48))%N w 0%N).
  Definition exponent_of (s : pystr) : option Z :=
    match s with
    | [] => Some 0%Z
    | c :: t =>
        let d := sign_off t in
        if (one 69 c || one 101 c) && negb (null d) && forallb is_ascii_digit d
        then Some (if minus t then - nat_of_digits d else nat_of_digits d)%Z else None
    end.
  (** [mpd_qfinalize] in the widest context (64 bits) changes nothing: MAX_EMAX,
      MIN_ETINY; [w]: the digits, [e]: the exponent of the last one *)
  Definition emax : Z := 999999999999999999.
  Definition etiny : Z := -1999999999999999997.
  Definition storable_digits (w : pystr) (e : Z) : bool :=
    let n := Z.of_nat (length (lstrip (one 48) w)) in
    ((etiny <=? e) && (if n =? 0 then e <=? emax else e + n - 1 <=? emax))%Z.
  Definition decimal_text (s : pystr) : bool :=
    let '(i, r) := span is_ascii_digit (sign_off (numeric_ascii s)) in
    let '(f, e) := match r with c :: r' => if one 46 c then span is_ascii_digit r' else ([], r) | [] => ([], []) end in
    negb (null i && null f) &&
    match exponent_of e with Some x => storable_digits (i ++ f) (x - Z.of_nat (length f)) | None => false end.
End Digits.

(** ** [base64.b64decode(text)]: ASCII only, then [a2b_base64], binascii.c.
    [q]: data characters in the current group of four; [pads]: padding
    characters seen in it *)
Definition b64_char (c : N) : bool := is_upper c || is_lower c || is_ascii_digit c || one 43 c || one 47 c.
Fixpoint a2b (q pads : nat) (s : pystr) : bool :=
  match s with
  | [] => q =? 0
  | c :: s' =>
      if one 61 c then
        if 2 <=? q then if 4 <=? q + S pads then true else a2b q (S pads) s' else a2b q pads s'
      else if b64_char c then a2b (if q =? 3 then 0 else S q) 0 s'
      else a2b q pads s'
  end.
Definition b64_text (s : pystr) : bool := forallb (fun c => N.ltb c 128) s && a2b 0 0 s.

(** ** The format tests with these parsers.  [str_of], [re.compile] and
    [Decimal] of a list stay parameters. *)
Section Env.
  Variables (X : iso_env) (str_of : pv -> pystr) (re_compiles decimal_list : pv -> bool).
  Definition in_range (z top : Z) : bool := ((0 <=? z) && (z <? top))%Z.
  Definition caught {A} (r : res A) : res bool := catch_value r.
  Definition std_ipv4 (v : pv) : res bool :=
    match v with
    | VInt z => Ok (in_range z (2 ^ 32)%Z)
    | VBool _ => Ok true
    | _ => caught (ipv4_text (str_of v))
    end.
  Definition std_ipv6 (v : pv) : res bool :=
    match v with
    | VInt z => Ok (in_range z (2 ^ 128)%Z)
    | VBool _ => Ok true
    | _ => caught (ipv6_text (str_of v))
    end.
  (** anything but a text has no [replace], or gives TypeError *)
  Definition std_uuid (v : pv) : bool := match v with VStr s => uuid_text X s | _ => false end.
  Definition std_b64 (v : pv) : bool := match v with VStr s => b64_text s | _ => false end.
  Definition std_decimal (v : pv) : bool :=
    match v with
    | VStr s => decimal_text X s
    | VInt _ | VBool _ | VFloat _ | VDec _ => true
    | VList _ => decimal_list v
    | VNone | VDict _ => false
    end.
  Definition std_env : fmt_env :=
    FmtEnv X str_of re_compiles std_b64 std_decimal std_ipv4 std_ipv6 std_uuid.
End Env.
