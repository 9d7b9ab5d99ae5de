(** What the text formats are meant to accept.  Nothing here mentions the
    patterns of the program. *)
From Verif Require Import PyBase.
Local Open Scope N_scope.
Local Notation length := List.length (only parsing).

Definition ascii_letter (c : N) : Prop := 65 <= c <= 90 \/ 97 <= c <= 122.
Definition ascii_digit (c : N) : Prop := 48 <= c <= 57.
Definition hyphen_char : N := 45.
(** The 52 letters and the four further characters that a case-insensitive
    [a-z] matches: U+0130, U+0131, U+017F and U+212A. *)
Definition folded_letter (c : N) : Prop := ascii_letter c \/ In c [304; 305; 383; 8490].

Section Letters.
  Variable letter : N -> Prop.
  Definition word_char (c : N) : Prop := letter c \/ ascii_digit c.
  (** 1 to 63 letters, digits and hyphens, no hyphen first or last *)
  Definition host_label (w : pystr) : Prop :=
    (1 <= length w <= 63)%nat /\
    (forall c, In c w -> word_char c \/ c = hyphen_char) /\
    (forall c w', w = c :: w' -> c <> hyphen_char) /\
    (forall c w', w = w' ++ [c] -> c <> hyphen_char).
  Definition dotted_list (item : pystr -> Prop) (s : pystr) : Prop :=
    exists l, l <> [] /\ Forall item l /\ s = join (u ".") l.
  Definition host (s : pystr) : Prop := dotted_list host_label s.
  Definition local_part (s : pystr) : Prop :=
    s <> [] /\ forall c, In c s -> word_char c \/ In c (u ".!#$%&'*+/=?^_`{|}~-").
  Definition email (s : pystr) : Prop :=
    (exists l h, local_part l /\ host h /\ s = l ++ u "@" ++ h) /\ ~ (exists a b, s = a ++ u ".." ++ b).
  Definition number_text (s : pystr) : Prop := s <> [] /\ forall c, In c s -> ascii_digit c.
  Definition identifier (s : pystr) : Prop := s <> [] /\ forall c, In c s -> word_char c \/ c = hyphen_char.
  (** [MAJOR.MINOR.PATCH], then maybe [-] identifiers, then maybe [+] identifiers *)
  Definition semver (s : pystr) : Prop :=
    exists major minor patch pre build,
      number_text major /\ number_text minor /\ number_text patch /\
      (pre = [] \/ exists ids, dotted_list identifier ids /\ pre = u "-" ++ ids) /\
      (build = [] \/ exists ids, dotted_list identifier ids /\ build = u "+" ++ ids) /\
      s = major ++ u "." ++ minor ++ u "." ++ patch ++ pre ++ build.
End Letters.

(** nothing, or one line feed *)
Definition final_newline (t : pystr) : Prop := t = [] \/ t = [10].
Definition ascii_text (s : pystr) : Prop := forall c, In c s -> c < 128.

(** ** URIs and URLs *)
Definition white_space (c : N) : Prop :=
  9 <= c <= 13 \/ 28 <= c <= 32 \/ In c [133; 160; 5760; 8232; 8233; 8239; 8287; 12288] \/ 8192 <= c <= 8202.
Definition no_space (w : pystr) : Prop := forall c, In c w -> ~ white_space c.

(** a scheme (a letter, then letters, digits and the characters of [also]), a
    colon, and no white space after it *)
Definition uri_text (letter : N -> Prop) (also : list N) (s : pystr) : Prop :=
  exists c w rest, letter c /\ (forall x, In x w -> word_char letter x \/ In x also) /\ no_space rest /\
    s = c :: w ++ u ":" ++ rest.

Definition wide_letter (c : N) : Prop := ascii_letter c \/ 161 <= c <= 65535.
Definition wide_char (c : N) : Prop := wide_letter c \/ ascii_digit c \/ c = 95.
(** words joined by single hyphens *)
Definition hyphenated (w : pystr) : Prop :=
  exists l, l <> [] /\ Forall (fun x => x <> [] /\ forall c, In c x -> wide_char c) l /\ w = join (u "-") l.
(** at least two labels, the last of at least two letters *)
Definition domain_name (s : pystr) : Prop :=
  exists l top, l <> [] /\ Forall hyphenated l /\ (2 <= length top)%nat /\ (forall c, In c top -> wide_letter c) /\
    s = join (u ".") (l ++ [top]).

Definition number_of (w : pystr) : N := fold_left (fun a c => 10 * a + (c - 48)) w 0.
Definition no_leading_zero (w : pystr) : Prop := forall w', w <> 48 :: w'.
Definition address (s a b c d : pystr) : Prop := s = a ++ u "." ++ b ++ u "." ++ c ++ u "." ++ d.
(** the networks 10/8, 127/8, 169.254/16, 192.168/16 and 172.16/12, by the first two numbers *)
Definition private_net (a b : N) : Prop :=
  a = 10 \/ a = 127 \/ (a = 169 /\ b = 254) \/ (a = 192 /\ b = 168) \/ (a = 172 /\ 16 <= b <= 31).
(** the middle numbers may be written with two digits, the first being 0 *)
Definition middle_number (w : pystr) : Prop :=
  number_text w /\ number_of w <= 255 /\ ((length w <= 2)%nat \/ no_leading_zero w).
Definition public_address (s : pystr) : Prop :=
  exists a b c d, address s a b c d /\
    number_text a /\ no_leading_zero a /\ 1 <= number_of a <= 223 /\
    middle_number b /\ middle_number c /\
    number_text d /\ no_leading_zero d /\ 1 <= number_of d <= 254 /\
    ~ private_net (number_of a) (number_of b).

Definition either_case (c x : N) : Prop := x = c \/ x = c - 32.
Definition maybe_text (P : pystr -> Prop) (w : pystr) : Prop := w = [] \/ P w.
(** [long_s]: whether U+017F counts as the letter s *)
Definition url_scheme_text (long_s : Prop) (w : pystr) : Prop :=
  Forall2 either_case (u "http") w \/ Forall2 either_case (u "ftp") w \/
  exists h s, Forall2 either_case (u "http") h /\ (either_case 115 s \/ (long_s /\ s = 383)) /\ w = h ++ [s].
Definition url (long_s : Prop) (s : pystr) : Prop :=
  exists scheme user host port path,
    s = scheme ++ u "://" ++ user ++ host ++ port ++ path /\
    url_scheme_text long_s scheme /\
    maybe_text (fun w => exists x, x <> [] /\ no_space x /\ w = x ++ u "@") user /\
    (public_address host \/ domain_name host) /\
    maybe_text (fun w => exists x, number_text x /\ (2 <= length x <= 5)%nat /\ w = u ":" ++ x) port /\
    maybe_text (fun w => exists x, no_space x /\ w = u "/" ++ x) path.

(** The host of a URL, as RFC 3986 has it: between the user part and the port,
    all before the first slash, question mark or hash. *)
Definition url_host_is (s h tail : pystr) : Prop :=
  exists scheme user port,
    s = scheme ++ u "://" ++ user ++ h ++ port ++ tail /\
    (forall c, In c scheme -> ascii_letter c) /\
    (forall c, In c (user ++ h ++ port) -> ~ In c (u "/?#")) /\
    (user = [] \/ exists x, user = x ++ u "@") /\
    (forall c, In c (h ++ port) -> c <> 64) /\
    (forall c, In c h -> c <> 58) /\
    (port = [] \/ exists x, port = u ":" ++ x) /\
    (tail = [] \/ exists c x, tail = c :: x /\ In c (u "/?#")).
Definition private_address (h : pystr) : Prop :=
  exists a b c d, address h a b c d /\ Forall number_text [a; b; c; d] /\ private_net (number_of a) (number_of b).

(** ** Booleans written as text *)
Definition boolean_words : list pystr :=
  map u ["0"; "1"; "f"; "t"; "n"; "y"; "no"; "yes"; "nope"; "yup"; "off"; "on"; "false"; "true"; "ok"]%string.
