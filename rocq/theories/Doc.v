(** Documents: [JsonSchema] without its validator ([jsoned/json_core.py:97-220]),
    the applicator keywords ([jsoned/keywords/ref_keyword.py],
    [anchor_keyword.py], [id_keyword.py]) and the store they use
    ([jsoned/json_store.py]).

    Simplifications: [functools.lru_cache] on [query] and the cached properties
    of [JsonReference] are left out (they repeat the answer of an earlier call);
    all keywords share one store; a dict is not iterated while it is edited. *)
From Verif Require Import PyBase PyVal Regex Numbers Uri Pointer Store Validators Heap.
Local Open Scope nat_scope.
Local Notation length := List.length (only parsing).

(** ** State *)
(** applicator keywords of a vocabulary, in order *)
Inductive appkw := AKRef | AKAnchor | AKId.
(** [JsonSchema], json_core.py:107-112; [s_voc]: the applicator keywords of its
    vocabulary *)
Record schema := Schema {
  s_value : addr; s_ready : bool; s_voc : list appkw;
  s_anchors : list (pystr * addr); s_id : option uri
}.
(** [w_store] is [JsonStore._storage]; documents are numbered *)
Record world := World { w_heap : heap; w_schemas : list schema; w_store : list (pystr * nat) }.

(** Computations that read and change the state; an exception keeps the changes
    made so far. *)
Definition M (A : Type) := world -> world * res A.
Definition ret {A} (a : A) : M A := fun w => (w, Ok a).
Definition raise {A} (e : exn) : M A := fun w => (w, Raise e).
Definition mbind {A B} (m : M A) (k : A -> M B) : M B := fun w =>
  match m w with
  | (w', Ok a) => k a w'
  | (w', Raise e) => (w', Raise e)
  | (w', OutOfFuel) => (w', OutOfFuel)
  end.
Notation "x <~ m ;; k" := (mbind m (fun x => k)) (at level 61, m at next level, right associativity).
Notation "' p <~ m ;; k" := (mbind m (fun p => k)) (at level 61, p pattern, m at next level, right associativity).
Definition lift {A} (r : res A) : M A := fun w => (w, r).
Definition get_world : M world := fun w => (w, Ok w).
Definition put_world (w : world) : M unit := fun _ => (w, Ok tt).
Fixpoint mmap {A B} (f : A -> M B) (l : list A) : M (list B) :=
  match l with
  | [] => ret []
  | x :: l' => y <~ f x ;; ys <~ mmap f l' ;; ret (y :: ys)
  end.

Definition node_at (a : addr) : M node := fun w =>
  match hget (w_heap w) a with Some n => (w, Ok n) | None => (w, Raise EUnmodelled) end.
Definition set_value (a : addr) (p : payload) : M unit := fun w =>
  (World (hset (w_heap w) a p) (w_schemas w) (w_store w), Ok tt).
Definition alloc (n : node) : M addr := fun w =>
  (World (w_heap w ++ [n]) (w_schemas w) (w_store w), Ok (length (w_heap w))).
Definition schema_at (s : nat) : M schema := fun w =>
  match nth_error (w_schemas w) s with Some x => (w, Ok x) | None => (w, Raise EUnmodelled) end.
Fixpoint lput {A} (l : list A) (i : nat) (x : A) : list A :=
  match l, i with
  | [], _ => []
  | _ :: l', O => x :: l'
  | y :: l', S i' => y :: lput l' i' x
  end.
Definition set_schema (s : nat) (x : schema) : M unit := fun w =>
  (World (w_heap w) (lput (w_schemas w) s x) (w_store w), Ok tt).
Definition add_schema (x : schema) : M nat := fun w =>
  (World (w_heap w) (w_schemas w ++ [x]) (w_store w), Ok (length (w_schemas w))).
(** [JsonSchema(node, vocabulary)] *)
Definition fresh (a : addr) (voc : list appkw) : schema := Schema a false voc [] None.

(** ** [int(text)]: surrounding white space, a sign, digits, single underscores
    between digits.  [dig] gives the value of a decimal digit. *)
Section PyInt.
  Variable dig : N -> option Z.
  Fixpoint int_digits (s : pystr) (acc : Z) (need : bool) : option Z :=
    match s with
    | [] => if need then None else Some acc
    | c :: s' =>
        match dig c with
        | Some d => int_digits s' (10 * acc + d)%Z false
        | None => if N.eqb c 95 && negb need then int_digits s' acc true else None
        end
    end.
  Fixpoint lstrip (s : pystr) : pystr :=
    match s with c :: s' => if is_space c then lstrip s' else s | [] => [] end.
  Definition py_int (s : pystr) : option Z :=
    match rev (lstrip (rev (lstrip s))) with
    | c :: s' =>
        if N.eqb c 43 then int_digits s' 0 true
        else if N.eqb c 45 then option_map Z.opp (int_digits s' 0 true)
        else int_digits (c :: s') 0 true
    | [] => None
    end.
End PyInt.

(** ** Reading nodes *)
Inductive jtype := JNull | JBool | JNum | JStr | JArr | JObj.
(** [JsonReference._value]: a dict, or the node referred to *)
Inductive raw := RDict (d : list (pystr * addr)) | RNode (a : addr).
(** keys of [node[key]], [key in node] *)
Inductive ikey := KS (s : pystr) | KI (z : Z).
Definition plain_key (k : ikey) : pv := match k with KS s => VStr s | KI z => VInt z end.

(** The functions that call one another without bound. *)
Inductive call : Type -> Type :=
| CQuery (s : nat) (p : list pystr) : call addr      (* schema.query(pointer) *)
| CType (a : addr) : call jtype                      (* node.type *)
| CRaw (a : addr) : call raw                         (* reference._value *)
| CHas (a : addr) (k : ikey) : call bool             (* key in node *)
| CGet (a : addr) (k : ikey) : call addr             (* node[key] *)
| CEq (a : addr) (k : ikey) : call bool              (* node == key *)
| CProcess (s : nat) (a : addr) : call addr.         (* schema._process_node(node) *)

Section Doc.
  Variable auth : pystr -> option authority.   (* see Uri.v *)
  Variable dig : N -> option Z.                (* values of decimal digits *)
  Variable strx : heap -> addr -> pystr.       (* str() of a node that is not a string *)
  Variable fetch : uri -> res pv.              (* the value the store's loader reads *)

  Section Step.
    Variable rec : forall {A}, call A -> M A.

    (** [JsonReference.type], ref_keyword.py:24-25 and the class attributes [type] *)
    Definition node_type (a : addr) : M jtype :=
      n <~ node_at a ;;
      match n_val n with
      | PNull => ret JNull | PBool _ => ret JBool | PNum _ => ret JNum | PStr _ => ret JStr
      | PArr _ => ret JArr | PObj _ => ret JObj
      | PRef r => f <~ rec (CQuery (r_schema r) (r_pointer r)) ;; rec (CType f)
      end.
    (** [node.items()], json_complex.py:33-34, ref_keyword.py:77-78 *)
    Definition node_items (a : addr) : M (list (pystr * addr)) :=
      n <~ node_at a ;;
      match n_val n with
      | PObj d => ret d
      | PRef _ => x <~ rec (CRaw a) ;; match x with RDict d => ret d | RNode _ => raise EAttr end
      | _ => raise EAttr
      end.
    (** [JsonReference._value], [_ref_value], ref_keyword.py:35-58 *)
    Definition ref_raw (a : addr) : M raw :=
      n <~ node_at a ;;
      match n_val n with
      | PRef r =>
          s <~ schema_at (r_schema r) ;;
          if s_ready s then
            f <~ rec (CQuery (r_schema r) (r_pointer r)) ;;
            t <~ rec (CType f) ;;
            match t with
            | JObj =>
                own <~ node_items (r_node r) ;;
                tgt <~ node_items f ;;
                let own' := filter (fun kx => negb (str_eqb (fst kx) (u "$ref"))) own in
                ret (RDict (fold_left (fun acc kx => dset (fst kx) (snd kx) acc) tgt
                             (fold_left (fun acc kx => dset (fst kx) (snd kx) acc) own' [])))
            | _ => ret (RNode f)
            end
          else
            m <~ node_at (r_node r) ;;
            match n_val m with
            | PObj d => ret (RDict d)
            | PRef _ => rec (CRaw (r_node r))
            | _ => raise EUnmodelled
            end
      | _ => raise EUnmodelled
      end.
    (** [node == key] for a plain key *)
    Definition node_eq (a : addr) (k : ikey) : M bool :=
      n <~ node_at a ;;
      match n_val n with
      | PStr s => ret (match k with KS t => str_eqb s t | KI _ => false end)
      | PNum d => lift (num_eq d (Plain (plain_key k)))
      | PBool _ => raise EType
      | PNull | PArr _ | PObj _ => ret false
      | PRef _ => x <~ rec (CRaw a) ;; match x with RDict _ => ret false | RNode f => rec (CEq f k) end
      end.
    Fixpoint any_eq (l : list addr) (k : ikey) : M bool :=
      match l with
      | [] => ret false
      | x :: l' => b <~ rec (CEq x k) ;; if b then ret true else any_eq l' k
      end.
    Definition dict_has (d : list (pystr * addr)) (k : ikey) : bool := match k with KS s => dmem s d | KI _ => false end.
    Definition dict_get (d : list (pystr * addr)) (k : ikey) : res addr :=
      match k with
      | KS s => match dget s d with Some x => Ok x | None => Raise (EKey s) end
      | KI _ => Raise (EKey [])
      end.
    (** [key in node], json_complex.py:48-49, 77-78, ref_keyword.py:60-61 *)
    Definition node_has (a : addr) (k : ikey) : M bool :=
      n <~ node_at a ;;
      match n_val n with
      | PObj d => ret (dict_has d k)
      | PArr l => any_eq l k
      | PStr s => match k with KS t => ret (str_in t s) | KI _ => raise EType end
      | PNull | PBool _ | PNum _ => raise EType
      | PRef _ => x <~ rec (CRaw a) ;; match x with RDict d => ret (dict_has d k) | RNode f => rec (CHas f k) end
      end.
    Definition index (l : list addr) (z : Z) : res addr :=
      let n := Z.of_nat (length l) in
      let j := (if z <? 0 then n + z else z)%Z in
      if (j <? 0)%Z then Raise EIndex
      else match nth_error l (Z.to_nat j) with Some x => Ok x | None => Raise EIndex end.
    (** [node[key]], json_complex.py:22-25, 65-69, ref_keyword.py:66-69 *)
    Definition node_get (a : addr) (k : ikey) : M addr :=
      n <~ node_at a ;;
      match n_val n with
      | PObj d => lift (dict_get d k)
      | PArr l => match k with KI z => lift (index l z) | KS _ => raise EType end
      | PRef _ =>
          x <~ rec (CRaw a) ;;
          match x with
          | RDict d => lift (dict_get d k)
          | RNode f =>
              b <~ rec (CHas f k) ;;
              if b then rec (CGet f k) else raise (EKey (match k with KS s => s | KI _ => [] end))
          end
      | _ => raise EType
      end.
    (** [str(node)] *)
    Definition node_str (a : addr) : M pystr := fun w =>
      match hget (w_heap w) a with
      | Some (Node (PStr s) _ _) => (w, Ok s)
      | Some _ => (w, Ok (strx (w_heap w) a))
      | None => (w, Raise EUnmodelled)
      end.
    Definition member_str (a : addr) (k : pystr) : M pystr := x <~ node_get a (KS k) ;; node_str x.

    (** ** [JsonStore], json_store.py:20-23, 49-57, 80-90 *)
    Definition store_key (v : uri) : M pystr := lift (key_of auth v).
    Definition store_contains (v : uri) : M bool := k <~ store_key v ;; w <~ get_world ;; ret (dmem k (w_store w)).
    Definition store_put (k : pystr) (s : nat) : M unit := fun w =>
      (World (w_heap w) (w_schemas w) (dset k s (w_store w)), Ok tt).
    Definition store_add (v : uri) (s : nat) : M unit :=
      b <~ lift (is_absolute auth v) ;;
      if b then k <~ store_key v ;; store_put k s else raise EValue.
    Definition wrap_new (v : pv) : M addr := fun w =>
      let '(a, h) := new (w_heap w) v in (World h (w_schemas w) (w_store w), Ok a).
    (** [JsonSchema(value, vocabulary)] of a plain value, json_core.py:98-112 *)
    Definition make_schema (v : pv) (voc : list appkw) : M nat :=
      match v with
      | VDict _ | VList _ => a <~ wrap_new v ;; add_schema (fresh a voc)
      | _ => raise EValue
      end.
    Definition store_load (v : uri) (voc : list appkw) : M nat :=
      k <~ store_key v ;;
      w <~ get_world ;;
      match dget k (w_store w) with
      | Some s => ret s
      | None =>
          x <~ lift (match fetch v with Raise EFileNotFound => Raise ELoad | r => r end) ;;
          s <~ make_schema x voc ;;
          _ <~ store_put k s ;;
          ret s
      end.

    (** ** Applicator keywords *)
    (** [RefKeyword.apply], ref_keyword.py:90-98 *)
    Definition apply_ref (s : nat) (a : addr) : M addr :=
      t <~ member_str a (u "$ref") ;;
      v <~ lift (mk_uri auth t) ;;
      p <~ lift (pointer_parse (u_frag v)) ;;
      b <~ lift (base_uri auth v) ;;
      n <~ node_at a ;;
      if uri_bool b then
        x <~ schema_at s ;;
        d <~ store_load v (s_voc x) ;;
        alloc (Node (PRef (RefData v a d p)) (n_parent n) (n_key n))
      else alloc (Node (PRef (RefData v a s p)) (n_parent n) (n_key n)).
    (** [AnchorKeyword.apply], anchor_keyword.py:11-15 *)
    Definition apply_anchor (s : nat) (a : addr) : M addr :=
      t <~ member_str a (u "$anchor") ;;
      x <~ schema_at s ;;
      _ <~ set_schema s (Schema (s_value x) (s_ready x) (s_voc x) (dset t a (s_anchors x)) (s_id x)) ;;
      n <~ node_at a ;;
      match n_val n with
      | PObj d => _ <~ set_value a (PObj (ddel (u "$anchor") d)) ;; ret a
      | _ => raise EType
      end.
    (** the text of [$id], else of [id] *)
    Definition id_text (a : addr) : M pystr :=
      b <~ node_has a (KS (u "$id")) ;;
      if b then member_str a (u "$id") else member_str a (u "id").
    (** [IdKeyword.apply], id_keyword.py:18-54 *)
    Definition apply_id (s : nat) (a : addr) : M addr :=
      t <~ id_text a ;;
      v <~ lift (mk_uri auth t) ;;
      match u_frag v with
      | _ :: _ => raise EValue
      | [] =>
          n <~ node_at a ;;
          match n_parent n with
          | None =>
              x <~ schema_at s ;;
              _ <~ set_schema s (Schema (s_value x) (s_ready x) (s_voc x) (s_anchors x) (Some v)) ;;
              b <~ store_contains v ;;
              _ <~ (if b then ret tt else store_add v s) ;;
              ret a
          | Some _ =>
              w <~ get_world ;;
              p <~ lift (node_path (w_heap w) a) ;;
              if str_mem (u "enum") p then ret a
              else
                abs <~ lift (is_absolute auth v) ;;
                v' <~ (if abs : bool then ret v
                       else
                         r <~ lift (node_root (w_heap w) a) ;;
                         b <~ node_has r (KS (u "$id")) ;;
                         if b then
                           t <~ member_str r (u "$id") ;; bu <~ lift (mk_uri auth t) ;; lift (resolve auth bu v)
                         else
                           c <~ node_has r (KS (u "id")) ;;
                           if c then
                             t <~ member_str r (u "id") ;; bu <~ lift (mk_uri auth t) ;; lift (resolve auth bu v)
                           else raise EValue) ;;
                match n_val n with
                | PObj _ | PArr _ =>
                    x <~ schema_at s ;;
                    d <~ add_schema (Schema a false (s_voc x) [] (Some v')) ;;
                    _ <~ store_add v' d ;;
                    ret a
                | _ => raise EValue
                end
          end
      end.
    Definition kw_names (k : appkw) : list pystr :=
      match k with AKRef => [u "$ref"] | AKAnchor => [u "$anchor"] | AKId => [u "$id"; u "id"] end.
    (** [can_apply_keyword], json_core.py:46-61 *)
    Fixpoint any_has (a : addr) (ks : list pystr) : M bool :=
      match ks with
      | [] => ret false
      | k :: ks' => b <~ node_has a (KS k) ;; if b then ret true else any_has a ks'
      end.
    Definition apply_kw (k : appkw) (s : nat) (a : addr) : M addr :=
      match k with AKRef => apply_ref s a | AKAnchor => apply_anchor s a | AKId => apply_id s a end.
    Fixpoint apply_kws (ks : list appkw) (s : nat) (a : addr) : M addr :=
      match ks with
      | [] => ret a
      | k :: ks' =>
          b <~ any_has a (kw_names k) ;;
          a' <~ (if b : bool then apply_kw k s a else ret a) ;;
          apply_kws ks' s a'
      end.
    (** [JsonSchema._process_node], json_core.py:203-220 *)
    Definition process (s : nat) (a : addr) : M addr :=
      t <~ rec (CType a) ;;
      match t with
      | JObj =>
          d <~ node_items a ;;
          d' <~ mmap (fun kx => c <~ rec (CProcess s (snd kx)) ;; ret (fst kx, c)) d ;;
          n <~ node_at a ;;
          match n_val n with
          | PObj _ =>
              _ <~ set_value a (PObj d') ;;
              x <~ schema_at s ;;
              apply_kws (s_voc x) s a
          | _ => raise EAttr
          end
      | _ => ret a
      end.
    (** [JsonSchema.load], json_core.py:150-160 *)
    Definition load (s : nat) : M unit :=
      x <~ schema_at s ;;
      if s_ready x then ret tt
      else
        a <~ rec (CProcess s (s_value x)) ;;
        y <~ schema_at s ;;
        set_schema s (Schema a true (s_voc y) (s_anchors y) (s_id y)).
    (** the loop of [JsonSchema.query], json_core.py:189-201 *)
    Fixpoint follow (a : addr) (p : list pystr) : M addr :=
      match p with
      | [] => ret a
      | k :: p' =>
          t <~ rec (CType a) ;;
          match t with
          | JArr => match py_int dig k with
                    | Some z => b <~ rec (CGet a (KI z)) ;; follow b p'
                    | None => raise EValue
                    end
          | JObj => b <~ rec (CGet a (KS k)) ;; follow b p'
          | _ => raise (EKey k)
          end
      end.
    (** [JsonSchema.query], json_core.py:171-201 *)
    Definition query (s : nat) (p : list pystr) : M addr :=
      _ <~ load s ;;
      x <~ schema_at s ;;
      match p with
      | [k] =>
          match dget k (s_anchors x) with
          | Some a => ret a
          | None => if str_eqb k [] then ret (s_value x) else follow (s_value x) p
          end
      | _ => follow (s_value x) p
      end.

    Definition step A (c : call A) : M A :=
      match c with
      | CQuery s p => query s p
      | CType a => node_type a
      | CRaw a => ref_raw a
      | CHas a k => node_has a k
      | CGet a k => node_get a k
      | CEq a k => node_eq a k
      | CProcess s a => process s a
      end.
  End Step.

  (** [n] bounds the depth of calls *)
  Fixpoint exec (n : nat) : forall A, call A -> M A :=
    match n with
    | O => fun A _ w => (w, OutOfFuel)
    | S n' => step (exec n')
    end.
  (** [schema.load()] and [schema.query("...")] *)
  Definition load_n (n : nat) (s : nat) : M unit := load (exec n) s.
  Definition query_text (n : nat) (s : nat) (t : pystr) : M addr := p <~ lift (pointer_parse t) ;; exec n addr (CQuery s p).
End Doc.
