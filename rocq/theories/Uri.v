(** jsoned/uri.py, with the parts of the rfc3986 1.5.0 package it calls.
    rfc3986 is not in the repository: its parsing pattern ([misc.URI_MATCHER]),
    [misc.ABSOLUTE_URI_MATCHER] and its normalizers are written out here from
    the published 1.5.0 source; [misc.SUBAUTHORITY_MATCHER] stays a parameter. *)
From Verif Require Import PyBase Regex.
Local Open Scope N_scope.
Local Notation length := List.length (only parsing).

Definition slash : N := 47.
(** ** Character classes of rfc3986.abnf_regexp *)
Definition is_alpha (x : N) : bool := is_lower x || is_upper x.
Definition scheme_char (x : N) : bool := is_alpha x || is_ascii_digit x || among (u "+.-") x.
Definition is_hex (x : N) : bool := is_ascii_digit x || between 97 102 x || between 65 70 x.
(** unreserved, sub-delims, [:] and [@] *)
Definition pchar (x : N) : bool := is_alpha x || is_ascii_digit x || among (u "._~-!$&'()*+,;=:@") x.
Definition query_char (x : N) : bool := pchar x || among (u "/?") x.
(** [_AUTHORITY_RE], [_PATH_RE], [_QUERY_RE], [_FRAGMENT_RE] *)
Definition auth_char (x : N) : bool := negb (among [92; 47; 63; 35] x).
Definition path_char (x : N) : bool := negb (among (u "?#") x).
Definition no_hash (x : N) : bool := negb (one 35 x).
Definition no_newline_char (x : N) : bool := negb (one newline x).
Definition scheme_re : regex := Seq (Cls is_alpha) (Star (Cls scheme_char)).
(** [URL_PARSING_RE]; groups 1..5 are scheme, authority, path, query, fragment *)
Definition uri_regex : regex :=
  seqs [ opt (Seq (Grp 1 scheme_re) (Cls (one 58)));
         opt (Seq (Cls (one slash)) (Seq (Cls (one slash)) (Grp 2 (Star (Cls auth_char)))));
         Grp 3 (Star (Cls path_char));
         opt (Seq (Cls (one 63)) (Grp 4 (Star (Cls no_hash))));
         opt (Seq (Cls (one 35)) (Grp 5 (Star (Cls no_newline_char)))) ].
(** [PCHAR] or a percent escape *)
Definition pchar_re : regex := Alt (Cls pchar) (seqs [Cls (one 37); Cls is_hex; Cls is_hex]).
Definition segment_re : regex := Star pchar_re.
Definition abempty_re : regex := Star (Seq (Cls (one slash)) segment_re).
Definition rootless_re : regex := Seq (plus pchar_re) abempty_re.
(** [ABSOLUTE_URI_MATCHER]; the last alternative of [HIER_PART_RE], [^$], can
    never match behind a scheme and is left out *)
Definition absolute_body : regex :=
  seqs [ scheme_re; Cls (one 58);
         Alt (Seq (Cls (one slash)) (Seq (Cls (one slash)) (Seq (Star (Cls auth_char)) abempty_re)))
             (Alt (Seq (Cls (one slash)) (opt rootless_re)) rootless_re);
         opt (Seq (Cls (one 63)) (Star (Alt (Cls query_char) (seqs [Cls (one 37); Cls is_hex; Cls is_hex])))) ].
Definition absolute_regex : regex := Seq absolute_body Eol.

(** ** rfc3986.normalizers *)
(** ASCII [str.lower] / [str.upper] *)
Definition lower_char (x : N) : N := if is_upper x then x + 32 else x.
Definition upper_char (x : N) : N := if is_lower x then x - 32 else x.
(** [normalize_scheme] (on ASCII text: the pattern admits nothing else) *)
Definition normalize_scheme (s : pystr) : pystr := map lower_char s.
(** [normalize_percent_characters]: every percent escape in upper case (two
    escapes never overlap, so the order of the replacements does not matter) *)
Fixpoint upper_escapes (s : pystr) : pystr :=
  match s with
  | c :: s' =>
      match s' with
      | a :: b :: s'' =>
          if one 37 c && is_hex a && is_hex b then c :: upper_char a :: upper_char b :: upper_escapes s''
          else c :: upper_escapes s'
      | _ => c :: upper_escapes s'
      end
  | [] => []
  end.
Definition dot : pystr := [46].
Definition dotdot : pystr := [46; 46].
(** the loop of [remove_dot_segments]; [out] is the output, last segment first *)
Fixpoint dots_loop (segs out : list pystr) : list pystr :=
  match segs with
  | [] => out
  | s :: segs' =>
      if str_eqb s dot then dots_loop segs' out
      else if negb (str_eqb s dotdot) then dots_loop segs' (s :: out)
      else match out with
           | _ :: out' => dots_loop segs' out'
           | [] => dots_loop segs' []
           end
  end.
(** [s.endswith(p)] *)
Definition endswith (p s : pystr) : bool := startswith (rev p) (rev s).
Definition remove_dot_segments (s : pystr) : pystr :=
  let output := rev (dots_loop (split slash s) []) in
  let output := if startswith (u "/") s && match output with [] :: _ => false | _ => true end
                then [] :: output else output in
  let output := if endswith (u "/.") s || endswith (u "/..") s then output ++ [[]] else output in
  join (u "/") output.
Definition normalize_path (s : pystr) : pystr :=
  match s with [] => [] | _ => remove_dot_segments (upper_escapes s) end.
(** [normalize_query], [normalize_fragment] *)
Definition normalize_query (s : pystr) : pystr := upper_escapes s.

(** ** [Authority], lines 16-77 *)
Record authority := Auth { a_user : pystr; a_host : pystr; a_port : pystr }.
(** [__str__], lines 35-44 *)
Definition auth_text (a : authority) : pystr :=
  (match a_user a with [] => [] | w => w ++ u "@" end) ++ a_host a ++ (match a_port a with [] => [] | w => u ":" ++ w end).
(** [__bool__], lines 46-47 *)
Definition auth_bool (a : authority) : bool :=
  negb (str_eqb (a_user a) []) || negb (str_eqb (a_host a) []) || negb (str_eqb (a_port a) []).
(** [__eq__] with another [Authority], lines 60-66 *)
Definition auth_eq (a b : authority) : bool :=
  str_eqb (a_user a) (a_user b) && str_eqb (a_host a) (a_host b) && str_eqb (a_port a) (a_port b).

(** ** [Uri], lines 80-245 *)
Record uri := Uri { u_scheme : pystr; u_auth : authority; u_path : pystr; u_query : pystr; u_frag : pystr }.

Section Uri.
  (** [misc.SUBAUTHORITY_MATCHER]: userinfo, host and port, absent ones empty;
      [None] when it does not match *)
  Variable subauth : pystr -> option authority.

  (** [Authority.__init__], lines 17-21: [None.groupdict] raises *)
  Definition mk_authority (s : pystr) : res authority :=
    match subauth s with Some a => Ok a | None => Raise EAttr end.
  Definition got (i : nat) (cs : caps) : pystr := match group i cs with Some w => w | None => [] end.

  (** [Uri.__init__], lines 81-92 *)
  Definition mk_uri (s : pystr) : res uri :=
    match re_match uri_regex s with
    | None => Raise EAttr
    | Some cs =>
        let scheme := normalize_scheme (got 1 cs) in
        authority <- mk_authority (got 2 cs) ;;
        let query := normalize_query (got 4 cs) in
        let fragment := normalize_query (got 5 cs) in
        let path := match scheme with [] => got 3 cs | _ => normalize_path (got 3 cs) end in
        Ok (Uri scheme authority path query fragment)
    end.

  (** [copy_with], lines 165-189; an absent argument is [None].  The lower-casing of
      a scheme is modelled for ASCII letters only *)
  Definition copy_with (v : uri) (scheme auth path query fragment : option pystr) : res uri :=
    let scheme' := match scheme with Some s => normalize_scheme s | None => u_scheme v end in
    auth' <- match auth with Some s => mk_authority s | None => Ok (u_auth v) end ;;
    let path' := match path with Some s => s | None => u_path v end in
    let query' := match query with Some s => normalize_query s | None => u_query v end in
    let fragment' := match fragment with Some s => normalize_query s | None => u_frag v end in
    let path'' := match scheme' with [] => path' | _ => normalize_path path' end in
    Ok (Uri scheme' auth' path'' query' fragment').

  (** [__str__], lines 191-203 *)
  Definition uri_text (v : uri) : pystr :=
    (match u_scheme v with [] => [] | w => w ++ u "://" end) ++
    (if auth_bool (u_auth v) then auth_text (u_auth v) else []) ++
    u_path v ++
    (match u_query v with [] => [] | w => u "?" ++ w end) ++
    (match u_frag v with [] => [] | w => u "#" ++ w end).

  (** [base_uri], lines 112-114 *)
  Definition base_uri (v : uri) : res uri := copy_with v None None None (Some []) (Some []).
  (** [is_absolute], lines 116-119 *)
  Definition is_absolute (v : uri) : res bool :=
    b <- copy_with v None None None (Some []) (Some []) ;;
    Ok (match re_match absolute_regex (uri_text b) with Some _ => true | None => false end).

  (** [path.rfind("/")] then [path[:index]]: without a slash the index is -1
      and the slice drops the last character.  [upto_last c s] is the text
      before the last [c], if there is one. *)
  Fixpoint upto_last (c : N) (s : pystr) : option pystr :=
    match s with
    | [] => None
    | x :: s' =>
        match upto_last c s' with
        | Some w => Some (x :: w)
        | None => if N.eqb x c then Some [] else None
        end
    end.
  Definition dir_of (path : pystr) : pystr :=
    match upto_last slash path with Some w => w | None => removelast path end.

  (** [resolve] with a [Uri], lines 141-159 *)
  Definition resolve (v r : uri) : res uri :=
    abs <- is_absolute r ;;
    if abs : bool then copy_with r None None None None None
    else match u_path r with
    | [] => copy_with v None None None (match u_query r with [] => None | q => Some q end) (Some (u_frag r))
    | _ =>
        if startswith (u "/") (u_path r)
        then copy_with v None None (Some (u_path r)) (Some (u_query r)) (Some (u_frag r))
        else copy_with v None None (Some (dir_of (u_path v) ++ u "/" ++ u_path r)) (Some (u_query r)) (Some (u_frag r))
    end.
  (** [resolve] with a [str], lines 138-139 *)
  Definition resolve_str (v : uri) (s : pystr) : res uri := r <- mk_uri s ;; resolve v r.

  (** [__eq__] with a [Uri] and with a [str], lines 219-236 *)
  Definition uri_eq (a b : uri) : bool :=
    str_eqb (u_scheme a) (u_scheme b) && auth_eq (u_auth a) (u_auth b) && str_eqb (u_path a) (u_path b) &&
    str_eqb (u_query a) (u_query b) && str_eqb (u_frag a) (u_frag b).
  Definition uri_eq_str (a : uri) (s : pystr) : res bool := b <- mk_uri s ;; Ok (uri_eq a b).
  (** [__bool__], lines 238-245 *)
  Definition uri_bool (v : uri) : bool :=
    negb (str_eqb (u_scheme v) []) || auth_bool (u_auth v) || negb (str_eqb (u_path v) []) ||
    negb (str_eqb (u_query v) []) || negb (str_eqb (u_frag v) []).
End Uri.
