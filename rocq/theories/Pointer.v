(** [jsoned/json_pointer.py] *)
From Verif Require Import PyBase Regex.
Local Open Scope N_scope.

Definition slash : N := 47.
Definition tilde : N := 126.

(** [POINTER_REGEX], line 8 (with a space added): [^(/(([^/~])|(~[01]))* )*$] *)
Definition pointer_body : regex :=
  Star (Grp 1 (Seq (Cls (one slash))
    (Star (Grp 2 (Alt (Grp 3 (Cls (fun c => negb (one slash c) && negb (one tilde c))))
                      (Grp 4 (Seq (Cls (one tilde)) (Cls (among (u "01")))))))))).
Definition pointer_regex : regex := Seq pointer_body Eol.

(** [escape], [unescape], lines 54-61 *)
Definition escape (w : pystr) : pystr := replace (u "/") (u "~1") (replace (u "~") (u "~0") w).
Definition unescape (w : pystr) : pystr := replace (u "~0") (u "~") (replace (u "~1") (u "/") w).

(** A [JsonPointer] is its list of reference tokens [_nodes].  [JsonPointer(s)],
    lines 10-14 *)
Definition pointer_parse (s : pystr) : res (list pystr) :=
  match re_fullmatch pointer_regex s with
  | None => Raise EValue
  | Some _ => Ok (map unescape (tl (split slash s)))
  end.
(** [from_list], lines 47-52 *)
Definition pointer_from_list (l : list pystr) : list pystr := l.
(** [__str__], lines 39-42 *)
Definition pointer_str (p : list pystr) : pystr :=
  match p with
  | [] => u "/"
  | _ => List.concat (map (fun w => u "/" ++ escape w) p)
  end.
