(** [JsonStore.load] with a vocabulary, json_store.py:67-90, with
    [DefaultLoader.load], uri_loader.py:63-77, and [JsonSchema.__init__],
    json_core.py:97-112. *)
From Verif Require Import PyBase PyVal Regex Numbers Uri Pointer Store Validators Keywords Heap Doc.
Local Open Scope nat_scope.

(** A vocabulary: its applicator keywords, which loading uses (json_core.py:155-158),
    and its assertion keywords, which validating uses (json_core.py:71-88).
    Simplification: one Python list holds both; only the order within each kind
    matters to the code. *)
Record vocab := Vocab { voc_apply : list appkw; voc_assert : list akw }.
Definition no_vocab : vocab := Vocab [] [].
(** What is kept of a [JsonSchema] that was just made: the value it was made from
    and its vocabulary. *)
Record made_schema := MadeSchema { ms_value : pv; ms_vocab : vocab }.
(** [JsonSchema(value, vocabulary)]: anything but dict and list is refused,
    json_core.py:98-100 *)
Definition new_schema (x : pv) (voc : vocab) : res made_schema :=
  match x with VDict _ | VList _ => Ok (MadeSchema x voc) | _ => Raise EValue end.

Section VocStore.
  Variable auth : pystr -> option authority.
  (** the loader: [out] is what finding, reading and parsing the file gives at the
      time of the call *)
  Definition file_loader (voc : vocab) (out : res pv) (_ : uri) (l : unit) : unit * res made_schema := (l, x <- out ;; new_schema x voc).
  Definition vstore := @store made_schema unit.
  Inductive vop :=
  | VAdd (v : uri) (d : made_schema)
  | VLoad (v : uri) (voc : option vocab) (out : res pv)
  | VLoadStr (s : pystr) (voc : option vocab) (out : res pv).
  (** [load], lines 67-78: no vocabulary is the empty one *)
  Definition vperform (o : vop) (st : vstore) : vstore * res (option made_schema) :=
    match o with
    | VAdd v d => let (st', r) := add auth v d st in (st', _ <- r ;; Ok None)
    | VLoad v voc out => let (st', r) := load_uri auth (file_loader (match voc with Some x => x | None => no_vocab end) out) v st in (st', d <- r ;; Ok (Some d))
    | VLoadStr s voc out => let (st', r) := load_str auth (file_loader (match voc with Some x => x | None => no_vocab end) out) s st in (st', d <- r ;; Ok (Some d))
    end.
  Fixpoint vhistory (ops : list vop) (st : vstore) : list (vop * res (option made_schema)) * vstore :=
    match ops with
    | [] => ([], st)
    | o :: ops' => let (st1, a) := vperform o st in let (log, st2) := vhistory ops' st1 in ((o, a) :: log, st2)
    end.
End VocStore.
