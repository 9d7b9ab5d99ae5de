(** [repr] of nodes and [JsonSchema.id] (json_core.py:129-141). *)
From Verif Require Import PyBase PyVal Numbers Uri Heap Doc.
Local Open Scope nat_scope.
Local Notation length := List.length (only parsing).

(** ** [str(x)] for an [int] and a [Decimal] *)
Definition num_digits (z : Z) : pystr := uint_chars (N.to_uint (Z.abs_N z)).
Definition int_text (z : Z) : pystr := (if (z <? 0)%Z then u "-" else []) ++ num_digits z.
(** [Decimal.__str__] of the standard library (a negative zero is not modelled) *)
Definition dec_text (d : dec) : pystr :=
  let ds := num_digits (dc d) in
  let left := (de d + Z.of_nat (length ds))%Z in
  let dot := (if (de d <=? 0) && (-6 <? left) then left else 1)%Z in
  let '(ip, fp) :=
    if (dot <=? 0)%Z then (u "0", u "." ++ repeat 48%N (Z.to_nat (- dot)) ++ ds)
    else if (Z.of_nat (length ds) <=? dot)%Z then (ds ++ repeat 48%N (Z.to_nat dot - length ds), [])
    else (firstn (Z.to_nat dot) ds, u "." ++ skipn (Z.to_nat dot) ds) in
  let ex := if (left =? dot)%Z then []
            else u "E" ++ (if (left - dot <? 0)%Z then u "-" else u "+") ++ num_digits (left - dot) in
  (if (dc d <? 0)%Z then u "-" else []) ++ ip ++ fp ++ ex.

(** ** [repr] of a [str] (standard library) *)
Section Repr.
  (** [str.isprintable] of one character beyond ASCII *)
  Variable printable : N -> bool.
  Local Open Scope N_scope.
  Definition hex1 (x : N) : N := if x <? 10 then 48 + x else 87 + x.
  (** the last [k] hexadecimal digits *)
  Fixpoint hexn (k : nat) (x : N) : pystr :=
    match k with O => [] | S k' => hexn k' (x / 16) ++ [hex1 (x mod 16)] end.
  Definition repr_char (q c : N) : pystr :=
    if (c =? q) || (c =? 92) then [92; c]
    else if c =? 9 then u "\t"
    else if c =? 10 then u "\n"
    else if c =? 13 then u "\r"
    else if (c <? 32) || (c =? 127) then u "\x" ++ hexn 2 c
    else if c <? 127 then [c]
    else if printable c then [c]
    else if c <? 256 then u "\x" ++ hexn 2 c
    else if c <? 65536 then u "\u" ++ hexn 4 c
    else u "\U" ++ hexn 8 c.
  (** a single quote, unless the text has those and no double quotes *)
  Definition quote_of (s : pystr) : N := if existsb (N.eqb 39) s && negb (existsb (N.eqb 34) s) then 34 else 39.
  Definition repr_str (s : pystr) : pystr :=
    let q := quote_of s in [q] ++ flat_map (repr_char q) s ++ [q].

  (** ** [JsonType.__repr__] (json_type.py:90-91: the value followed by a closing
      parenthesis), [JsonBoolean.__repr__] (json_boolean.py:35-36),
      [JsonReference.__repr__] (ref_keyword.py:80-81); a list or dict prints the
      [repr] of its elements.  [fuel] bounds the depth.  Simplification: the
      dots Python prints for a container inside itself are not modelled. *)
  Fixpoint node_repr (fuel : nat) (h : heap) (a : addr) : res pystr :=
    match fuel with
    | O => OutOfFuel
    | S f =>
        match hget h a with
        | None => Raise EUnmodelled
        | Some n =>
            match n_val n with
            | PNull => Ok (u "None)")
            | PBool b => Ok (if b then u "JsonBool(True)" else u "JsonBool(False)")
            | PNum d => Ok (dec_text d ++ u ")")
            | PStr s => Ok (s ++ u ")")
            | PArr l => ts <- map_res (node_repr f h) l ;; Ok (u "[" ++ join (u ", ") ts ++ u "])")
            | PObj d =>
                ts <- map_res (fun kx => t <- node_repr f h (snd kx) ;; Ok (repr_str (fst kx) ++ u ": " ++ t)) d ;;
                Ok (u "{" ++ join (u ", ") ts ++ u "})")
            | PRef r => Ok (u "JsonReference(" ++ uri_text (r_uri r) ++ u ")")
            end
        end
    end.

  (** ** [text.encode("utf8")]: surrogates are refused (UnicodeEncodeError, a
      ValueError) *)
  Definition surrogate (c : N) : bool := (55296 <=? c) && (c <? 57344).
  Definition utf8_char (c : N) : list N :=
    if c <? 128 then [c]
    else if c <? 2048 then [192 + c / 64; 128 + c mod 64]
    else if c <? 65536 then [224 + c / 4096; 128 + c / 64 mod 64; 128 + c mod 64]
    else [240 + c / 262144; 128 + c / 4096 mod 64; 128 + c / 64 mod 64; 128 + c mod 64].
  Definition utf8 (s : pystr) : res (list N) :=
    if existsb surrogate s then Raise EValue else Ok (flat_map utf8_char s).

  (** ** [JsonSchema.id], json_core.py:129-137 *)
  Variable auth : pystr -> option authority.
  (** [sha256(bytes).hexdigest()] *)
  Variable sha : list N -> pystr.
  Definition doc_id (fuel : nat) (s : nat) : M uri :=
    x <~ schema_at s ;;
    match s_id x with
    | Some v => ret v
    | None =>
        w <~ get_world ;;
        t <~ lift (node_repr fuel (w_heap w) (s_value x)) ;;
        b <~ lift (utf8 t) ;;
        v <~ lift (mk_uri auth (u "local://" ++ sha b ++ u "/")) ;;
        _ <~ set_schema s (Schema (s_value x) (s_ready x) (s_voc x) (s_anchors x) (Some v)) ;;
        ret v
    end.
End Repr.
