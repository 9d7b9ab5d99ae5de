(** Validation with a loaded document: [JsonSchema.validate]
    ([jsoned/json_core.py:114-127]) over the nodes of Doc.v, and the same for a
    plain JSON value taken as a schema. *)
From Verif Require Import PyBase PyVal Regex Numbers Uri Pointer Store Validators Keywords Heap Doc.
Local Open Scope nat_scope.

Section Validate.
  Variable auth : pystr -> option authority.
  Variable dig : N -> option Z.
  Variable strx : heap -> addr -> pystr.
  Variable fetch : uri -> res pv.

  (** What the keywords and validators learn of a node through [node.type],
      [node.items()], [node[key]], [key in node], [bool(node)] and [==]:
      types/*.py, and for a reference ref_keyword.py:23-78, whose [_value] is a
      merged dict or the node referred to.  The type of a reference is asked
      first ([LazyValidator._load_validator], json_core.py:72, and the [isinstance]
      and [type] tests of the keywords), which loads the document referred to. *)
  Fixpoint node_view (rec : forall A, call A -> M A) (k : nat) (a : addr) : M (nview addr) :=
    match k with
    | O => fun w => (w, OutOfFuel)
    | S k' =>
        n <~ node_at a ;;
        match n_val n with
        | PNull => ret (NView NNull false)
        | PBool b => ret (NView (NBool b) false)
        | PNum d => ret (NView (NNum d) false)
        | PStr s => ret (NView (NStr s) false)
        | PArr l => ret (NView (NArr l) false)
        | PObj d => ret (NView (NObj d) false)
        | PRef _ =>
            _ <~ rec jtype (CType a) ;;
            r <~ rec raw (CRaw a) ;;
            match r with
            | RDict d => ret (NView (NObj d) true)
            | RNode f => v <~ node_view rec k' f ;; ret (NView (nv_val v) true)
            end
        end
    end.
  (** Simplification: every node is read in the world [w]; what reading changes
      (loading a document that is referred to for the first time) is dropped, and
      the nodes such a load makes are outside the model ([EUnmodelled]). *)
  Definition see (n : nat) (w : world) (a : addr) : res (nview addr) :=
    snd (node_view (exec auth dig strx fetch n) n a w).

  (** [JsonSchema.validate], json_core.py:114-127: load, then validate with the
      root; [n] bounds the calls of Doc.v, [fuel] the nesting of validators *)
  Definition document_validate (E : env) (voc : list akw) (n fuel : nat) (s : nat) (v : pv) : M unit :=
    _ <~ load_n auth dig strx fetch n s ;;
    x <~ schema_at s ;;
    w <~ get_world ;;
    lift (schema_validate (see n w) (strx (w_heap w)) E voc fuel (s_value x) v).
End Validate.

(** A JSON value as a schema: its members and elements, numbers as the decimals
    [JsonNumber] keeps (types/json_number.py:13-21). *)
Definition pv_view (v : pv) : res (nview pv) :=
  Ok (NView (match v with
             | VNone => NNull
             | VBool b => NBool b
             | VInt z => NNum (Dec z 0)
             | VFloat f => NNum (frepr f)
             | VDec d => NNum d
             | VStr s => NStr s
             | VList l => NArr l
             | VDict d => NObj d
             end) false).
