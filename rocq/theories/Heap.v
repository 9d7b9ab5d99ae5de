(** [jsoned/types/]: wrapped JSON values as nodes of a heap with parent links. *)
From Verif Require Import PyBase PyVal Numbers Uri Validators.
Local Open Scope nat_scope.
Local Notation length := List.length (only parsing).

(** Node identities: positions in the heap. *)
Definition addr := nat.

(** What a [JsonReference] holds, [keywords/ref_keyword.py:16-21].  The
    document is the number of a [JsonSchema] object.  Simplification: the cached
    properties [fragment] and [_ref_value] are recomputed at each use. *)
Record refdata := RefData { r_uri : uri; r_node : addr; r_schema : nat; r_pointer : list pystr }.

(** [_value] of a node, by class. *)
Inductive payload :=
| PNull
| PBool (b : bool)
| PNum (d : dec)
| PStr (s : pystr)
| PArr (l : list addr)
| PObj (items : list (pystr * addr))
| PRef (r : refdata).

(** [JsonType.__init__], [types/json_type.py:37-40] *)
Record node := Node { n_val : payload; n_parent : option addr; n_key : pystr }.
Definition heap := list node.

Definition hget (h : heap) (a : addr) : option node := nth_error h a.
Fixpoint hput (h : heap) (a : addr) (n : node) : heap :=
  match h, a with
  | [], _ => []
  | _ :: h', O => n :: h'
  | x :: h', S a' => x :: hput h' a' n
  end.
(** assignment to [node._value] *)
Definition hset (h : heap) (a : addr) (p : payload) : heap :=
  match hget h a with
  | Some n => hput h a (Node p (n_parent n) (n_key n))
  | None => h
  end.

(** [_map_value], [JsonObject.__init__], [JsonArray.__init__]
    ([types/json_complex.py:15-17, 58-60, 94-117]) on a plain value: the nodes
    created, to be placed from [base] on, the node for the value itself first.
    Members keep their order; an array element's key is its index.
    Simplification: a dict is given by its list of members, names distinct. *)
Fixpoint wrap (base : addr) (parent : option addr) (key : pystr) (v : pv) : heap :=
  match v with
  | VDict d =>
      let fix go (b : addr) (d : list (pystr * pv)) : list (pystr * addr) * heap :=
        match d with
        | [] => ([], [])
        | (k, x) :: d' =>
            let ns := wrap b (Some base) k x in
            let '(its, rest) := go (b + length ns) d' in
            ((k, b) :: its, ns ++ rest)
        end in
      let '(its, rest) := go (S base) d in
      Node (PObj its) parent key :: rest
  | VStr s => [Node (PStr s) parent key]
  | VBool b => [Node (PBool b) parent key]
  | VList l =>
      let fix go (b : addr) (i : nat) (l : list pv) : list addr * heap :=
        match l with
        | [] => ([], [])
        | x :: l' =>
            let ns := wrap b (Some base) (nat_str i) x in
            let '(els, rest) := go (b + length ns) (S i) l' in
            (b :: els, ns ++ rest)
        end in
      let '(els, rest) := go (S base) 0 l in
      Node (PArr els) parent key :: rest
  | VInt _ | VFloat _ | VDec _ =>
      match mk_number v with
      | Ok d => [Node (PNum d) parent key]
      | _ => []
      end
  | VNone => [Node PNull parent key]
  end.
(** A new document: [JsonObject(v)] and the like. *)
Definition new (h : heap) (v : pv) : addr * heap := (length h, h ++ wrap (length h) None [] v).

(** ** [JsonType.path], [types/json_type.py:46-55], read off the parent links.
    Parents never change after construction, so caching makes no difference. *)
Fixpoint keys_up (fuel : nat) (h : heap) (a : addr) : res (list pystr) :=
  match fuel with
  | O => OutOfFuel
  | S f =>
      match hget h a with
      | None => Raise EUnmodelled
      | Some n =>
          match n_parent n with
          | None => Ok []
          | Some p => ks <- keys_up f h p ;; Ok (ks ++ [n_key n])
          end
      end
  end.
Definition node_path (h : heap) (a : addr) : res (list pystr) := keys_up (length h) h a.
(** [is_root], [root], [types/json_type.py:93-101] *)
Definition is_root (h : heap) (a : addr) : bool :=
  match hget h a with Some n => match n_parent n with None => true | _ => false end | None => false end.
Fixpoint root_up (fuel : nat) (h : heap) (a : addr) : res addr :=
  match fuel with
  | O => OutOfFuel
  | S f =>
      match hget h a with
      | None => Raise EUnmodelled
      | Some n => match n_parent n with None => Ok a | Some p => root_up f h p end
      end
  end.
Definition node_root (h : heap) (a : addr) : res addr := root_up (length h) h a.

(** ** Edits of a [JsonObject], [types/json_complex.py:19-52] *)
Definition obj_items (h : heap) (a : addr) : res (list (pystr * addr)) :=
  match hget h a with Some (Node (PObj d) _ _) => Ok d | _ => Raise EAttr end.
(** [obj[k]] *)
Definition obj_get (h : heap) (a : addr) (k : pystr) : res addr :=
  d <- obj_items h a ;; match dget k d with Some x => Ok x | None => Raise (EKey k) end.
(** [k in obj], [len(obj)], [obj.keys()], [obj.values()] *)
Definition obj_has (h : heap) (a : addr) (k : pystr) : res bool := d <- obj_items h a ;; Ok (dmem k d).
Definition obj_len (h : heap) (a : addr) : res nat := d <- obj_items h a ;; Ok (length d).
Definition obj_keys (h : heap) (a : addr) : res (list pystr) := d <- obj_items h a ;; Ok (dkeys d).
Definition obj_values (h : heap) (a : addr) : res (list addr) := d <- obj_items h a ;; Ok (map snd d).
(** [obj[k] = v] for a plain value; names are strings here (the code refuses
    others with KeyError) *)
Definition obj_set (h : heap) (a : addr) (k : pystr) (v : pv) : res heap :=
  d <- obj_items h a ;;
  let h1 := h ++ wrap (length h) (Some a) k v in
  Ok (hset h1 a (PObj (dset k (length h) d))).
(** [obj[k] = node] for a node: stored as it is *)
Definition obj_set_node (h : heap) (a : addr) (k : pystr) (x : addr) : res heap :=
  d <- obj_items h a ;; Ok (hset h a (PObj (dset k x d))).
(** [del obj[k]]: no effect when there is no such member *)
Definition obj_del (h : heap) (a : addr) (k : pystr) : res heap :=
  d <- obj_items h a ;; Ok (if dmem k d then hset h a (PObj (ddel k d)) else h).
(** [del arr[i]] of a [JsonArray], lines 74-75 *)
Definition arr_del (h : heap) (a : addr) (i : Z) : res heap :=
  match hget h a with
  | Some (Node (PArr l) _ _) =>
      let n := Z.of_nat (length l) in
      let j := (if i <? 0 then n + i else i)%Z in
      if ((0 <=? j) && (j <? n))%Z
      then Ok (hset h a (PArr (firstn (Z.to_nat j) l ++ skipn (S (Z.to_nat j)) l)))
      else Raise EIndex
  | _ => Raise EAttr
  end.

(** What comparisons and validators observe of a node that is no reference. *)
Definition hview (h : heap) (a : addr) : res (nview addr) :=
  match hget h a with
  | Some n =>
      match n_val n with
      | PNull => Ok (NView NNull false)
      | PBool b => Ok (NView (NBool b) false)
      | PNum d => Ok (NView (NNum d) false)
      | PStr s => Ok (NView (NStr s) false)
      | PArr l => Ok (NView (NArr l) false)
      | PObj d => Ok (NView (NObj d) false)
      | PRef _ => Raise EUnmodelled
      end
  | None => Raise EUnmodelled
  end.
