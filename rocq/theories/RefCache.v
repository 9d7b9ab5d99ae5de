(** References remember what they have read: [functools.cached_property] on
    [JsonReference.fragment] and [JsonReference._ref_value]
    (jsoned/keywords/ref_keyword.py:31-58).  The functions are those of [Doc.v]
    that read nodes, with the two caches.

    Simplification: the documents referred to are loaded; one that is not gives
    [EUnmodelled]. *)
From Verif Require Import PyBase PyVal Regex Numbers Uri Pointer Store Validators Heap Doc.
Local Open Scope nat_scope.
Local Notation length := List.length (only parsing).

(** the two attributes in the [__dict__] of reference nodes *)
Record caches := Caches { c_fragment : list (addr * addr); c_value : list (addr * raw) }.
Fixpoint aget {A} (a : addr) (l : list (addr * A)) : option A :=
  match l with [] => None | (b, x) :: l' => if Nat.eqb a b then Some x else aget a l' end.

(** reading changes the caches, not the documents *)
Definition C (A : Type) := world -> caches -> caches * res A.
Definition cret {A} (a : A) : C A := fun _ c => (c, Ok a).
Definition craise {A} (e : exn) : C A := fun _ c => (c, Raise e).
Definition cbind {A B} (m : C A) (k : A -> C B) : C B := fun w c =>
  match m w c with
  | (c', Ok a) => k a w c'
  | (c', Raise e) => (c', Raise e)
  | (c', OutOfFuel) => (c', OutOfFuel)
  end.
Local Notation "x <-- m ;; k" := (cbind m (fun x => k)) (at level 61, m at next level, right associativity).
Definition clift {A} (r : res A) : C A := fun _ c => (c, r).
Definition c_node_at (a : addr) : C node := fun w c =>
  (c, match hget (w_heap w) a with Some n => Ok n | None => Raise EUnmodelled end).
Definition c_schema_at (s : nat) : C schema := fun w c =>
  (c, match nth_error (w_schemas w) s with Some x => Ok x | None => Raise EUnmodelled end).

Section RefCache.
  Variable dig : N -> option Z.                (* values of decimal digits *)

  Section Step.
    Variable rec : forall A, call A -> C A.

    (** [cached_property]: the attribute if it is there, else compute it and, on
        success, set it *)
    Definition c_frag (a : addr) (r : refdata) : C addr := fun w c =>
      match aget a (c_fragment c) with
      | Some f => (c, Ok f)
      | None =>
          let '(c', o) := rec addr (CQuery (r_schema r) (r_pointer r)) w c in
          (match o with Ok f => Caches ((a, f) :: c_fragment c') (c_value c') | _ => c' end, o)
      end.
    (** [node.type], ref_keyword.py:24-25 and the class attributes [type] *)
    Definition c_type (a : addr) : C jtype :=
      n <-- c_node_at a ;;
      match n_val n with
      | PNull => cret JNull | PBool _ => cret JBool | PNum _ => cret JNum | PStr _ => cret JStr
      | PArr _ => cret JArr | PObj _ => cret JObj
      | PRef r => f <-- c_frag a r ;; rec jtype (CType f)
      end.
    (** [node.items()], json_complex.py:33-34, ref_keyword.py:77-78 *)
    Definition c_items (a : addr) : C (list (pystr * addr)) :=
      n <-- c_node_at a ;;
      match n_val n with
      | PObj d => cret d
      | PRef _ => x <-- rec raw (CRaw a) ;; match x with RDict d => cret d | RNode _ => craise EAttr end
      | _ => craise EAttr
      end.
    (** [JsonReference._ref_value] without its cache, ref_keyword.py:43-58; the
        second use of [self.fragment] finds the attribute set by the first *)
    Definition c_ref_value (a : addr) (r : refdata) : C raw :=
      f <-- c_frag a r ;;
      t <-- rec jtype (CType f) ;;
      match t with
      | JObj =>
          own <-- c_items (r_node r) ;;
          tgt <-- c_items f ;;
          let own' := filter (fun kx => negb (str_eqb (fst kx) (u "$ref"))) own in
          cret (RDict (fold_left (fun acc kx => dset (fst kx) (snd kx) acc) tgt
                        (fold_left (fun acc kx => dset (fst kx) (snd kx) acc) own' [])))
      | _ => cret (RNode f)
      end.
    (** [JsonReference._value], ref_keyword.py:35-40, with the cache of [_ref_value] *)
    Definition c_raw (a : addr) : C raw :=
      n <-- c_node_at a ;;
      match n_val n with
      | PRef r =>
          s <-- c_schema_at (r_schema r) ;;
          if s_ready s then
            fun w c =>
              match aget a (c_value c) with
              | Some x => (c, Ok x)
              | None =>
                  let '(c', o) := c_ref_value a r w c in
                  (match o with Ok x => Caches (c_fragment c') ((a, x) :: c_value c') | _ => c' end, o)
              end
          else craise EUnmodelled
      | _ => craise EUnmodelled
      end.
    (** [node == key] for a plain key, json_type.py:57-61 *)
    Definition c_eq (a : addr) (k : ikey) : C bool :=
      n <-- c_node_at a ;;
      match n_val n with
      | PStr s => cret (match k with KS t => str_eqb s t | KI _ => false end)
      | PNum d => clift (num_eq d (Plain (plain_key k)))
      | PBool _ => craise EType
      | PNull | PArr _ | PObj _ => cret false
      | PRef _ => x <-- rec raw (CRaw a) ;; match x with RDict _ => cret false | RNode f => rec bool (CEq f k) end
      end.
    Fixpoint c_any_eq (l : list addr) (k : ikey) : C bool :=
      match l with
      | [] => cret false
      | x :: l' => b <-- rec bool (CEq x k) ;; if b : bool then cret true else c_any_eq l' k
      end.
    (** [key in node], json_complex.py:48-49, 77-78, ref_keyword.py:60-61 *)
    Definition c_has (a : addr) (k : ikey) : C bool :=
      n <-- c_node_at a ;;
      match n_val n with
      | PObj d => cret (dict_has d k)
      | PArr l => c_any_eq l k
      | PStr s => match k with KS t => cret (str_in t s) | KI _ => craise EType end
      | PNull | PBool _ | PNum _ => craise EType
      | PRef _ => x <-- rec raw (CRaw a) ;; match x with RDict d => cret (dict_has d k) | RNode f => rec bool (CHas f k) end
      end.
    (** [node[key]], json_complex.py:22-25, 65-69, ref_keyword.py:66-69 *)
    Definition c_get (a : addr) (k : ikey) : C addr :=
      n <-- c_node_at a ;;
      match n_val n with
      | PObj d => clift (dict_get d k)
      | PArr l => match k with KI z => clift (index l z) | KS _ => craise EType end
      | PRef _ =>
          x <-- rec raw (CRaw a) ;;
          match x with
          | RDict d => clift (dict_get d k)
          | RNode f =>
              b <-- rec bool (CHas f k) ;;
              if b : bool then rec addr (CGet f k) else craise (EKey (match k with KS s => s | KI _ => [] end))
          end
      | _ => craise EType
      end.
    (** the loop of [JsonSchema.query], json_core.py:189-201 *)
    Fixpoint c_follow (a : addr) (p : list pystr) : C addr :=
      match p with
      | [] => cret a
      | k :: p' =>
          t <-- rec jtype (CType a) ;;
          match t with
          | JArr => match py_int dig k with
                    | Some z => b <-- rec addr (CGet a (KI z)) ;; c_follow b p'
                    | None => craise EValue
                    end
          | JObj => b <-- rec addr (CGet a (KS k)) ;; c_follow b p'
          | _ => craise (EKey k)
          end
      end.
    (** [JsonSchema.query] on a loaded document, json_core.py:171-201; its own cache
        is in [Session.v], and a reference asks only once *)
    Definition c_query (s : nat) (p : list pystr) : C addr :=
      x <-- c_schema_at s ;;
      if s_ready x then
        match p with
        | [k] =>
            match dget k (s_anchors x) with
            | Some a => cret a
            | None => if str_eqb k [] then cret (s_value x) else c_follow (s_value x) p
            end
        | _ => c_follow (s_value x) p
        end
      else craise EUnmodelled.
    Definition c_step A (q : call A) : C A :=
      match q with
      | CQuery s p => c_query s p
      | CType a => c_type a
      | CRaw a => c_raw a
      | CHas a k => c_has a k
      | CGet a k => c_get a k
      | CEq a k => c_eq a k
      | CProcess _ _ => craise EUnmodelled
      end.
  End Step.
  (** [n] bounds the depth of calls *)
  Fixpoint c_exec (n : nat) : forall A, call A -> C A :=
    match n with
    | O => fun A _ w c => (c, OutOfFuel)
    | S n' => c_step (c_exec n')
    end.

  (** what a program does: read a node, or change the documents (an assignment or
      a deletion) *)
  Inductive action := | Read {A} (q : call A) | Edit (f : world -> world).
  (** the log: the documents at the time, what was read, the answer *)
  Inductive entry := | Entry {A} (w : world) (q : call A) (o : res A).
  Fixpoint reading (n : nat) (l : list action) (w : world) (c : caches) : list entry * world * caches :=
    match l with
    | [] => ([], w, c)
    | Read q :: l' => let '(c1, o) := c_exec n _ q w c in let '(log, w', c') := reading n l' w c1 in (Entry w q o :: log, w', c')
    | Edit f :: l' => reading n l' (f w) c
    end.
End RefCache.
