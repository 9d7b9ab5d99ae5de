(** [jsoned/validators/format_validators.py] and the registry
    [jsoned/string_format.py]. *)
From Verif Require Import PyBase PyVal Regex Iso.
Local Open Scope Z_scope.

(** The callees outside the package. *)
Record fmt_env := FmtEnv {
  iso : iso_env;
  str_of : pv -> pystr;                 (* [str(value)] *)
  re_compiles : pv -> bool;             (* lines 37-42: [re.compile(value)] does not raise *)
  b64_decodes : pv -> bool;             (* 45-50: [base64.b64decode(value)] does not raise *)
  decimal_finite : pv -> bool;          (* 148-160: a Decimal, or [Decimal(value)] does not raise and is finite *)
  ipv4 : pv -> res bool;                (* 163-168: [IPv4Address(value)], [false] for [AddressValueError] *)
  ipv6 : pv -> res bool;                (* 171-176 *)
  uuid_ok : pv -> bool                  (* 230-235: [UUID(value)] does not raise *)
}.

(** ** Patterns *)
Definition dash : N := 45%N.
Definition dot : N := 46%N.
Definition alnum_i (c : N) : bool := is_letter_i c || is_ascii_digit c.
Definition alnum_dash_i (c : N) : bool := alnum_i c || one dash c.
(** one label: [[a-z0-9](?:[a-z0-9-]{0,61}[a-z0-9])?] *)
Definition label : regex :=
  Seq (Cls alnum_i) (opt (Seq (upto 61 (Cls alnum_dash_i)) (Cls alnum_i))).
Definition labels : regex := Seq label (Star (Seq (Cls (one dot)) label)).
(** [HOSTNAME_REGEX], lines 135-138 *)
Definition hostname_regex : regex := Seq labels Eol.
(** [EMAIL_REGEX], lines 115-119 *)
Definition local_char (c : N) : bool := alnum_i c || among (u ".!#$%&'*+/=?^_`{|}~-") c.
Definition email_regex : regex := Seq (Seq (plus (Cls local_char)) (Seq (Cls (one 64%N)) labels)) Eol.
(** [SEMVER_REGEX], lines 191-194 *)
Definition ident : regex := plus (Cls alnum_dash_i).
Definition idents : regex := Seq ident (Star (Seq (Cls (one dot)) ident)).
Definition digits : regex := plus (Cls is_ascii_digit).
Definition semver_body : regex :=
  Grp 1 (Seq
    (Grp 2 (seqs [Grp 3 digits; Cls (one dot); Grp 4 digits; Cls (one dot); Grp 5 digits;
                  opt (Seq (Cls (one dash)) (Grp 6 idents))]))
    (opt (Seq (Cls (one 43%N)) (Grp 7 idents)))).
Definition semver_regex : regex := Seq semver_body Eol.
(** [URI_REGEX], line 205: [^(?:[a-z][a-z0-9+-.]*:)(?:\\/?\\/)?[^\s]*$].  In the
    raw string [\\] is a backslash, so the optional part is [\], [/]?, [\], [/];
    [+-.] is the range from "+" to ".". *)
Definition backslash : N := 92%N.
Definition uri_body : regex :=
  seqs [Cls is_letter_i; Star (Cls (fun c => is_letter_i c || is_ascii_digit c || between 43 46 c)); Cls (one 58%N);
        opt (seqs [Cls (one backslash); opt (Cls (one 47%N)); Cls (one backslash); Cls (one 47%N)]);
        Star (Cls (fun c => negb (is_space c)))].
Definition uri_regex : regex := Seq uri_body Eol.

(** [URL_REGEX], lines 216-219, piece by piece.  [\d] is any decimal digit
    ([digit]); [[a-z\u00a1-\uffff]] under [re.I] is the letters of either case and
    the range (which holds the four further variants of [i], [k] and [s]). *)
Definition url_letter (c : N) : bool := is_lower c || is_upper c || between 161 65535 c.
Definition url_word (c : N) : bool := url_letter c || is_ascii_digit c || one 95%N c.
Definition non_space : regex := Cls (fun c => negb (is_space c)).
Definition word_i (s : string) : regex := seqs (map (fun c => Cls (lit_i c)) (u s)).
(** [(?:https?|ftp):\/\/] *)
Definition url_scheme : regex := Seq (Alt (Seq (word_i "http") (opt (Cls (lit_i (chr "s"))))) (word_i "ftp")) (lits "://").
(** optional: non-spaces, optionally a colon and non-spaces, then an at sign *)
Definition url_user : regex :=
  opt (Seq (plus non_space) (Seq (opt (Seq (Cls (one (chr ":"))) (Star non_space))) (Cls (one (chr "@"))))).
(** one label: words of the class, each but the last followed by an optional hyphen *)
Definition url_label : regex :=
  Seq (Star (Seq (plus (Cls url_word)) (opt (Cls (one dash))))) (plus (Cls url_word)).
Definition url_domain : regex :=
  Seq url_label (Seq (Star (Seq (Cls (one dot)) url_label))
                     (Seq (Cls (one dot)) (Seq (Cls url_letter) (plus (Cls url_letter))))).
(** optional: a slash and non-spaces *)
Definition url_path : regex := opt (Seq (Cls (one (chr "/"))) (Star non_space)).
Section Url.
  Variable I : iso_env.
  Definition dig : regex := d1 I.
  (** [(?:\.\d{1,3}){n}] *)
  Definition dotted_digits (n : nat) : regex := times n (Seq (Cls (one dot)) (Seq dig (upto 2 dig))).
  (** the five lookaheads *)
  Definition private_nets : list regex :=
    [Seq (lits "10") (dotted_digits 3); Seq (lits "127") (dotted_digits 3);
     Seq (lits "169.254") (dotted_digits 2); Seq (lits "192.168") (dotted_digits 2);
     Seq (Seq (lits "172.") (Alt (Seq (lits "1") (rng 54 57)) (Alt (Seq (lits "2") dig) (Seq (lits "3") (rng 48 49)))))
         (dotted_digits 2)].
  (** [[1-9]\d?|1\d\d|2[01]\d|22[0-3]] *)
  Definition first_octet : regex :=
    Alt (Seq (rng 49 57) (opt dig))
        (Alt (Seq (lits "1") (Seq dig dig)) (Alt (Seq (lits "2") (Seq (rng 48 49) dig)) (Seq (lits "22") (rng 48 51)))).
  (** [1?\d{1,2}|2[0-4]\d|25[0-5]] *)
  Definition inner_octet : regex :=
    Alt (Seq (opt (lits "1")) (Seq dig (upto 1 dig)))
        (Alt (Seq (lits "2") (Seq (rng 48 52) dig)) (Seq (lits "25") (rng 48 53))).
  (** [[1-9]\d?|1\d\d|2[0-4]\d|25[0-4]] *)
  Definition last_octet : regex :=
    Alt (Seq (rng 49 57) (opt dig))
        (Alt (Seq (lits "1") (Seq dig dig)) (Alt (Seq (lits "2") (Seq (rng 48 52) dig)) (Seq (lits "25") (rng 48 52)))).
  Definition url_address : regex :=
    Seq first_octet (Seq (times 2 (Seq (Cls (one dot)) inner_octet)) (Seq (Cls (one dot)) last_octet)).
  Definition url_host : regex := Alt (fold_right (fun p r => Seq (NotLook p) r) url_address private_nets) url_domain.
  (** [(?::\d{2,5})?] *)
  Definition url_port : regex := opt (Seq (Cls (one (chr ":"))) (Seq (times 2 dig) (upto 3 dig))).
  Definition url_regex : regex :=
    Seq (Seq url_scheme url_user) (Seq url_host (Seq (Seq url_port url_path) Eol)).
End Url.

Definition matches (r : regex) (s : pystr) : bool := match re_match r s with Some _ => true | None => false end.
(** [pattern.match(value)] refuses anything but text *)
Definition on_text (f : pystr -> bool) (v : pv) : res bool :=
  match v with VStr s => Ok (f s) | _ => Raise EType end.

Section Formats.
  Variable X : fmt_env.
  (** lines 53-64: membership in two sets; lists and dicts are unhashable *)
  Definition format_boolean (v : pv) : res bool :=
    match v with
    | VList _ | VDict _ => Raise EType
    | VStr s => Ok (str_mem s (map u ["0"; "no"; "n"; "nope"; "false"; "f"; "off";
                                      "1"; "ok"; "yes"; "y"; "yup"; "true"; "t"; "on"]%string))
    | _ => Ok (py_eq v (VInt 0) || py_eq v (VInt 1))
    end.
  (** [try: parse(str(value)); except ValueError: return False] *)
  Definition catch_value {A} (r : res A) : res bool :=
    match r with
    | Ok _ => Ok true
    | Raise EValue => Ok false
    | Raise e => Raise e
    | OutOfFuel => OutOfFuel
    end.
  Definition catch_all {A} (r : res A) : res bool :=
    match r with
    | Ok _ => Ok true
    | Raise _ => Ok false
    | OutOfFuel => OutOfFuel
    end.
  Definition format_datetime (v : pv) : res bool := catch_value (parse_iso_datetime (iso X) (str_of X v)).  (* 67-76 *)
  Definition format_date (v : pv) : res bool := catch_value (parse_iso_date (iso X) (str_of X v)).          (* 79-88 *)
  Definition format_time (v : pv) : res bool := catch_value (parse_iso_time (iso X) (str_of X v)).          (* 91-99 *)
  Definition format_duration (v : pv) : res bool := catch_all (parse_iso_duration (iso X) (str_of X v)).    (* 102-111 *)
  Definition format_email (v : pv) : res bool :=                                                            (* 122-132 *)
    on_text (fun s => matches email_regex s && negb (str_in (u "..") s)) v.
  Definition format_hostname (v : pv) : res bool := on_text (matches hostname_regex) v.                     (* 141-145 *)
  Definition format_semver (v : pv) : res bool := Ok (matches semver_regex (str_of X v)).                   (* 197-202 *)
  Definition format_uri (v : pv) : res bool := Ok (matches uri_regex (str_of X v)).                         (* 208-213 *)
  Definition format_url (v : pv) : res bool := Ok (matches (url_regex (iso X)) (str_of X v)).               (* 222-227 *)
  Definition format_ip (v : pv) : res bool := b <- ipv4 X v ;; if b then Ok true else ipv6 X v.             (* 179-188 *)

  (** [_StringFormat.__init__], [string_format.py:46-65] *)
  Definition formats : list (pystr * (pv -> res bool)) :=
    map (fun kf => (u (fst kf), snd kf))
      [("boolean", format_boolean); ("byte", fun v => Ok (b64_decodes X v)); ("date", format_date);
       ("date-time", format_datetime); ("decimal", fun v => Ok (decimal_finite X v)); ("email", format_email);
       ("hostname", format_hostname); ("ip-address", format_ip); ("ip-address-v4", ipv4 X); ("ip-address-v6", ipv6 X);
       ("pattern", fun v => Ok (re_compiles X v)); ("semver", format_semver); ("time", format_time);
       ("time-duration", format_duration); ("uri", format_uri); ("url", format_url);
       ("uuid", fun v => Ok (uuid_ok X v))]%string.
  (** [StringFormat[name]], [string_format.py:67-70] *)
  Definition string_format (name : pystr) : option (pv -> res bool) := dget name formats.
  (** [StringFormat[name] = f], [string_format.py:72-73], for each pair in turn;
      the table afterwards *)
  Definition registered (hist : list (pystr * (pv -> res bool))) : list (pystr * (pv -> res bool)) :=
    fold_left (fun t nf => dset (fst nf) (snd nf) t) hist formats.
End Formats.
