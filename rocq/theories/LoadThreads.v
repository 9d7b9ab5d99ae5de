(** Several threads loading and querying one document that is not loaded yet.

    The functions of [Doc.v] once more, as programs of single reads and writes
    of what threads share: attributes of nodes and of [JsonSchema] objects, the
    dictionary of anchors and the dictionary of the store.  CPython executes each
    of them without a switch of threads, and may switch between any two.

    Simplifications: those of [Doc.v]; a loop over the members of an object goes
    over the members there were when it began (CPython raises RuntimeError if
    another thread meanwhile deletes a member of that dictionary, which only
    [$anchor] does); [functools.cached_property] and [lru_cache] are left out. *)
From Verif Require Import PyBase PyVal Regex Numbers Uri Pointer Store Validators Heap Doc.
Local Open Scope nat_scope.
Local Notation length := List.length (only parsing).

(** ** Programs of a thread *)
Inductive prog (A : Type) : Type :=
| Done (r : res A)
| Act (f : world -> world * prog A).
Arguments Done {A} r.
Arguments Act {A} f.
Fixpoint pbind {A B} (p : prog A) (k : A -> prog B) : prog B :=
  match p with
  | Done (Ok a) => k a
  | Done (Raise e) => Done (Raise e)
  | Done OutOfFuel => Done OutOfFuel
  | Act f => Act (fun w => let (w', p') := f w in (w', pbind p' k))
  end.
Local Notation "x <. p ;; k" := (pbind p (fun x => k)) (at level 61, p at next level, right associativity).
Local Notation pret a := (Done (Ok a)).
Local Notation praise e := (Done (Raise e)).
(** one read or write *)
Definition atom {A} (m : M A) : prog A := Act (fun w => let (w', r) := m w in (w', Done r)).

(** attributes of a [JsonSchema], json_core.py:107-112 *)
Definition read {A} (s : nat) (f : schema -> A) : prog A := atom (fun w =>
  match nth_error (w_schemas w) s with Some x => (w, Ok (f x)) | None => (w, Raise EUnmodelled) end).
Definition write (s : nat) (f : schema -> schema) : prog unit := atom (fun w =>
  match nth_error (w_schemas w) s with
  | Some x => (World (w_heap w) (lput (w_schemas w) s (f x)) (w_store w), Ok tt)
  | None => (w, Raise EUnmodelled)
  end).
Definition put_value (s : nat) (a : addr) : prog unit :=
  write s (fun x => Schema a (s_ready x) (s_voc x) (s_anchors x) (s_id x)).
Definition put_ready (s : nat) : prog unit :=
  write s (fun x => Schema (s_value x) true (s_voc x) (s_anchors x) (s_id x)).
Definition put_anchor (s : nat) (t : pystr) (a : addr) : prog unit :=
  write s (fun x => Schema (s_value x) (s_ready x) (s_voc x) (dset t a (s_anchors x)) (s_id x)).
Definition put_id (s : nat) (v : uri) : prog unit :=
  write s (fun x => Schema (s_value x) (s_ready x) (s_voc x) (s_anchors x) (Some v)).
(** the class and the [_value] of a node; [parent] and [key] are never assigned again *)
Definition peek (a : addr) : prog node := atom (node_at a).

Section LoadThreads.
  Variable auth : pystr -> option authority.
  Variable dig : N -> option Z.
  Variable strx : heap -> addr -> pystr.
  Variable fetch : uri -> res pv.

  Section Step.
    Variable rec : forall {A}, call A -> prog A.

    (** as [Doc.node_type] *)
    Definition t_type (a : addr) : prog jtype :=
      n <. peek a ;;
      match n_val n with
      | PNull => pret JNull | PBool _ => pret JBool | PNum _ => pret JNum | PStr _ => pret JStr
      | PArr _ => pret JArr | PObj _ => pret JObj
      | PRef r => f <. rec (CQuery (r_schema r) (r_pointer r)) ;; rec (CType f)
      end.
    (** as [Doc.node_items] *)
    Definition t_items (a : addr) : prog (list (pystr * addr)) :=
      n <. peek a ;;
      match n_val n with
      | PObj d => pret d
      | PRef _ => x <. rec (CRaw a) ;; match x with RDict d => pret d | RNode _ => praise EAttr end
      | _ => praise EAttr
      end.
    (** as [Doc.ref_raw], ref_keyword.py:35-58 *)
    Definition t_raw (a : addr) : prog raw :=
      n <. peek a ;;
      match n_val n with
      | PRef r =>
          b <. read (r_schema r) s_ready ;;
          if b : bool then
            f <. rec (CQuery (r_schema r) (r_pointer r)) ;;
            t <. rec (CType f) ;;
            match t with
            | JObj =>
                own <. t_items (r_node r) ;;
                tgt <. t_items f ;;
                let own' := filter (fun kx => negb (str_eqb (fst kx) (u "$ref"))) own in
                pret (RDict (fold_left (fun acc kx => dset (fst kx) (snd kx) acc) tgt
                              (fold_left (fun acc kx => dset (fst kx) (snd kx) acc) own' [])))
            | _ => pret (RNode f)
            end
          else
            m <. peek (r_node r) ;;
            match n_val m with
            | PObj d => pret (RDict d)
            | PRef _ => rec (CRaw (r_node r))
            | _ => praise EUnmodelled
            end
      | _ => praise EUnmodelled
      end.
    (** as [Doc.node_eq], [Doc.any_eq] *)
    Definition t_eq (a : addr) (k : ikey) : prog bool :=
      n <. peek a ;;
      match n_val n with
      | PStr s => pret (match k with KS t => str_eqb s t | KI _ => false end)
      | PNum d => Done (num_eq d (Plain (plain_key k)))
      | PBool _ => praise EType
      | PNull | PArr _ | PObj _ => pret false
      | PRef _ => x <. rec (CRaw a) ;; match x with RDict _ => pret false | RNode f => rec (CEq f k) end
      end.
    Fixpoint t_any_eq (l : list addr) (k : ikey) : prog bool :=
      match l with
      | [] => pret false
      | x :: l' => b <. rec (CEq x k) ;; if b : bool then pret true else t_any_eq l' k
      end.
    (** as [Doc.node_has], [Doc.node_get] *)
    Definition t_has (a : addr) (k : ikey) : prog bool :=
      n <. peek a ;;
      match n_val n with
      | PObj d => pret (dict_has d k)
      | PArr l => t_any_eq l k
      | PStr s => match k with KS t => pret (str_in t s) | KI _ => praise EType end
      | PNull | PBool _ | PNum _ => praise EType
      | PRef _ => x <. rec (CRaw a) ;; match x with RDict d => pret (dict_has d k) | RNode f => rec (CHas f k) end
      end.
    (** [JsonObject.__getitem__] tests and then reads (json_complex.py:22-25) *)
    Definition t_get (a : addr) (k : ikey) : prog addr :=
      n <. peek a ;;
      match n_val n with
      | PObj d =>
          if dict_has d k then
            n' <. peek a ;;
            match n_val n' with PObj d' => Done (dict_get d' k) | _ => praise EUnmodelled end
          else Done (dict_get d k)
      | PArr l => match k with KI z => Done (index l z) | KS _ => praise EType end
      | PRef _ =>
          x <. rec (CRaw a) ;;
          match x with
          | RDict d => Done (dict_get d k)
          | RNode f =>
              b <. rec (CHas f k) ;;
              if b : bool then rec (CGet f k) else praise (EKey (match k with KS s => s | KI _ => [] end))
          end
      | _ => praise EType
      end.
    Definition t_str (a : addr) : prog pystr := atom (node_str strx a).
    Definition t_member_str (a : addr) (k : pystr) : prog pystr := x <. t_get a (KS k) ;; t_str x.

    (** [JsonStore], json_store.py:20-23, 49-57, 80-90 *)
    Definition t_stored (k : pystr) : prog (option nat) := atom (fun w => (w, Ok (dget k (w_store w)))).
    Definition t_contains (v : uri) : prog bool :=
      k <. Done (key_of auth v) ;; o <. t_stored k ;; pret (match o with Some _ => true | None => false end).
    Definition t_add (v : uri) (s : nat) : prog unit :=
      b <. Done (is_absolute auth v) ;;
      if b : bool then k <. Done (key_of auth v) ;; atom (store_put k s) else praise EValue.
    Definition t_make (v : pv) (voc : list appkw) : prog nat :=
      match v with
      | VDict _ | VList _ => a <. atom (wrap_new v) ;; atom (add_schema (fresh a voc))
      | _ => praise EValue
      end.
    Definition t_store_load (v : uri) (voc : list appkw) : prog nat :=
      k <. Done (key_of auth v) ;;
      o <. t_stored k ;;
      match o with
      | Some s => pret s
      | None =>
          x <. Done (match fetch v with Raise EFileNotFound => Raise ELoad | r => r end) ;;
          s <. t_make x voc ;;
          _ <. atom (store_put k s) ;;
          pret s
      end.

    (** [RefKeyword.apply], ref_keyword.py:90-98 *)
    Definition t_apply_ref (s : nat) (a : addr) : prog addr :=
      t <. t_member_str a (u "$ref") ;;
      v <. Done (mk_uri auth t) ;;
      p <. Done (pointer_parse (u_frag v)) ;;
      b <. Done (base_uri auth v) ;;
      n <. peek a ;;
      if uri_bool b then
        voc <. read s s_voc ;;
        d <. t_store_load v voc ;;
        atom (alloc (Node (PRef (RefData v a d p)) (n_parent n) (n_key n)))
      else atom (alloc (Node (PRef (RefData v a s p)) (n_parent n) (n_key n))).
    (** [del self._value[key]] *)
    Definition del_member (a : addr) (k : pystr) : prog unit := atom (fun w =>
      match hget (w_heap w) a with
      | Some (Node (PObj d) _ _) =>
          if dmem k d then (World (hset (w_heap w) a (PObj (ddel k d))) (w_schemas w) (w_store w), Ok tt)
          else (w, Raise (EKey k))
      | _ => (w, Raise EType)
      end).
    (** [AnchorKeyword.apply], anchor_keyword.py:11-15; [JsonObject.__delitem__],
        json_complex.py:42-46 *)
    Definition t_apply_anchor (s : nat) (a : addr) : prog addr :=
      t <. t_member_str a (u "$anchor") ;;
      _ <. put_anchor s t a ;;
      n <. peek a ;;
      match n_val n with
      | PObj d => _ <. (if dmem (u "$anchor") d then del_member a (u "$anchor") else pret tt) ;; pret a
      | _ => praise EType
      end.
    Definition t_id_text (a : addr) : prog pystr :=
      b <. t_has a (KS (u "$id")) ;;
      if b : bool then t_member_str a (u "$id") else t_member_str a (u "id").
    (** [IdKeyword.apply], id_keyword.py:18-54; the text of a root's identifier is
        read once instead of twice *)
    Definition t_apply_id (s : nat) (a : addr) : prog addr :=
      t <. t_id_text a ;;
      v <. Done (mk_uri auth t) ;;
      match u_frag v with
      | _ :: _ => praise EValue
      | [] =>
          n <. peek a ;;
          match n_parent n with
          | None =>
              _ <. put_id s v ;;
              b <. t_contains v ;;
              _ <. (if b : bool then pret tt else t_add v s) ;;
              pret a
          | Some _ =>
              p <. atom (fun w => (w, node_path (w_heap w) a)) ;;
              if str_mem (u "enum") p then pret a
              else
                abs <. Done (is_absolute auth v) ;;
                v' <. (if abs : bool then pret v
                       else
                         r <. atom (fun w => (w, node_root (w_heap w) a)) ;;
                         b <. t_has r (KS (u "$id")) ;;
                         if b : bool then
                           t <. t_member_str r (u "$id") ;; bu <. Done (mk_uri auth t) ;; Done (resolve auth bu v)
                         else
                           c <. t_has r (KS (u "id")) ;;
                           if c : bool then
                             t <. t_member_str r (u "id") ;; bu <. Done (mk_uri auth t) ;; Done (resolve auth bu v)
                           else praise EValue) ;;
                match n_val n with
                | PObj _ | PArr _ =>
                    voc <. read s s_voc ;;
                    d <. atom (add_schema (Schema a false voc [] (Some v'))) ;;
                    _ <. t_add v' d ;;
                    pret a
                | _ => praise EValue
                end
          end
      end.
    (** as [Doc.any_has], [Doc.apply_kw], [Doc.apply_kws] *)
    Fixpoint t_any_has (a : addr) (ks : list pystr) : prog bool :=
      match ks with
      | [] => pret false
      | k :: ks' => b <. t_has a (KS k) ;; if b : bool then pret true else t_any_has a ks'
      end.
    Definition t_apply_kw (k : appkw) (s : nat) (a : addr) : prog addr :=
      match k with AKRef => t_apply_ref s a | AKAnchor => t_apply_anchor s a | AKId => t_apply_id s a end.
    Fixpoint t_apply_kws (ks : list appkw) (s : nat) (a : addr) : prog addr :=
      match ks with
      | [] => pret a
      | k :: ks' =>
          b <. t_any_has a (kw_names k) ;;
          a' <. (if b : bool then t_apply_kw k s a else pret a) ;;
          t_apply_kws ks' s a'
      end.
    Fixpoint t_map {A B} (f : A -> prog B) (l : list A) : prog (list B) :=
      match l with
      | [] => pret []
      | x :: l' => y <. f x ;; ys <. t_map f l' ;; pret (y :: ys)
      end.
    (** [JsonSchema._process_node], json_core.py:203-220; the assignment to
        [node._value] is refused by a [JsonReference] (ref_keyword.py:35: a
        property without setter) *)
    Definition t_process (s : nat) (a : addr) : prog addr :=
      t <. rec (CType a) ;;
      match t with
      | JObj =>
          d <. t_items a ;;
          d' <. t_map (fun kx => c <. rec (CProcess s (snd kx)) ;; pret (fst kx, c)) d ;;
          n <. peek a ;;
          match n_val n with
          | PObj _ =>
              _ <. atom (set_value a (PObj d')) ;;
              voc <. read s s_voc ;;
              t_apply_kws voc s a
          | _ => praise EAttr
          end
      | _ => pret a
      end.
    (** [JsonSchema.load], json_core.py:150-160 *)
    Definition t_load (s : nat) : prog unit :=
      b <. read s s_ready ;;
      if b : bool then pret tt
      else
        x <. read s s_value ;;
        a <. rec (CProcess s x) ;;
        _ <. put_value s a ;;
        put_ready s.
    (** the loop of [JsonSchema.query], json_core.py:189-201 *)
    Fixpoint t_follow (a : addr) (p : list pystr) : prog addr :=
      match p with
      | [] => pret a
      | k :: p' =>
          t <. rec (CType a) ;;
          match t with
          | JArr => match py_int dig k with
                    | Some z => b <. rec (CGet a (KI z)) ;; t_follow b p'
                    | None => praise EValue
                    end
          | JObj => b <. rec (CGet a (KS k)) ;; t_follow b p'
          | _ => praise (EKey k)
          end
      end.
    (** [JsonSchema.value], json_core.py:143-148 *)
    Definition t_value (s : nat) : prog addr :=
      b <. read s s_ready ;;
      if b : bool then read s s_value else _ <. t_load s ;; read s s_value.
    (** [JsonSchema.query], json_core.py:171-201; an anchor is tested for and then read *)
    Definition t_query (s : nat) (p : list pystr) : prog addr :=
      root <. t_value s ;;
      match p with
      | [k] =>
          o <. read s (fun x => dget k (s_anchors x)) ;;
          match o with
          | Some _ =>
              o' <. read s (fun x => dget k (s_anchors x)) ;;
              match o' with Some a => pret a | None => praise (EKey k) end
          | None => if str_eqb k [] then pret root else t_follow root p
          end
      | _ => t_follow root p
      end.

    Definition t_step A (c : call A) : prog A :=
      match c with
      | CQuery s p => t_query s p
      | CType a => t_type a
      | CRaw a => t_raw a
      | CHas a k => t_has a k
      | CGet a k => t_get a k
      | CEq a k => t_eq a k
      | CProcess s a => t_process s a
      end.
  End Step.

  (** [n] bounds the depth of calls *)
  Fixpoint t_exec (n : nat) : forall A, call A -> prog A :=
    match n with
    | O => fun A _ => Done OutOfFuel
    | S n' => t_step (t_exec n')
    end.
  Definition t_load_n (n : nat) (s : nat) : prog unit := t_load (t_exec n) s.
End LoadThreads.

(** ** Interleavings: a schedule says which thread makes the next step *)
Section Interleave.
  Context {A : Type}.
  Definition state := (world * list (prog A))%type.
  Definition step_thread (s : state) (i : nat) : state :=
    let (w, ts) := s in
    match nth_error ts i with
    | Some (Act f) => let (w', p) := f w in (w', lput ts i p)
    | _ => s
    end.
  Definition interleave (sched : list nat) (s : state) : state := fold_left step_thread sched s.
  (** the outcome of a thread, if it has one *)
  Definition outcome (s : state) (i : nat) : option (res A) :=
    match nth_error (snd s) i with Some (Done r) => Some r | _ => None end.
End Interleave.
(** a thread that is never interrupted *)
Fixpoint alone {A} (p : prog A) : M A := fun w =>
  match p with
  | Done r => (w, r)
  | Act f => let (w', p') := f w in alone p' w'
  end.
