(** Several threads calling [schema.validate] on one loaded [JsonSchema].

    A thread is a program of single reads and writes of the objects the threads
    share: the attribute [_validator] of the schema, the attributes [_loaded] and
    [_data] of a [LazyValidator] (json_core.py:64-94), the dictionary of an
    [ObjectValidator] and its attribute [pattern_properties]
    (validators/object_validators.py:42-53) and the dictionary of that
    [CompoundValidator] (validators/core_validators.py:59-94).  CPython executes
    each of them without a switch of threads, and may switch between any two.
    Everything else a call does (reading the document, computing on the value,
    making a context) touches nothing that is written.

    Modelled: the keywords of [DRAFT_2020_12_VOCABULARY] (vocabulary.py:26-42)
    on a document that is loaded.  Not modelled: the other keywords, two threads
    loading the document itself. *)
From Verif Require Import PyBase PyVal Errors Validators Keywords.
Local Open Scope nat_scope.
Local Notation length := List.length (only parsing).

Section Threads.
  Context {node : Type} (view : node -> res (nview node)) (strx : node -> pystr) (E : env).
  Variable voc : list akw.

  (** ** The shared objects *)
  Definition lid := nat.                     (* a LazyValidator *)
  Definition oid := nat.                     (* an ObjectValidator *)
  Definition pid := nat.                     (* the CompoundValidator of the patterns *)
  (** an entry of the [_data] of a [LazyValidator]: a validator that never
      changes once made, or an [ObjectValidator] *)
  Inductive entry := ELeaf (o : vobj node node) | EObj (o : oid).
  Record lcell := LCell { l_node : node; l_loaded : bool; l_data : list (pystr * entry) }.
  Record ocell := OCell { o_props : list (pystr * lid); o_pats : option pid }.
  Record world := World {
    w_root : option lid;                     (* JsonSchema._validator *)
    w_lazy : list lcell;
    w_objs : list ocell;
    w_pats : list (list (pystr * lid)) }.
  (** a schema nobody has validated with (json_core.py:104-112) *)
  Definition start : world := World None [] [] [].

  (** ** One read or write *)
  (** [next] of an iterator over a dictionary: it complains when the number of
      entries is not the one it started with (CPython: RuntimeError) *)
  Inductive stepped (A : Type) := Changed | End | Item (x : A).
  Arguments Changed {A}.
  Arguments End {A}.
  Arguments Item {A} x.
  Definition iter_next {A} (d : list A) (size i : nat) : stepped A :=
    if negb (Nat.eqb (length d) size) then Changed
    else match nth_error d i with Some x => Item x | None => End end.

  Inductive prog :=
  | Done (r : res unit)
  | GetRoot (k : option lid -> prog)
  | PutRoot (l : lid) (k : prog)
  | NewLazy (n : node) (k : lid -> prog)             (* LazyValidator(schema, n) *)
  | GetLoaded (l : lid) (k : bool -> prog)
  | PutLoaded (l : lid) (k : prog)                   (* self._loaded = True *)
  | GetNode (l : lid) (k : option node -> prog)      (* self._node, never assigned again *)
  | GetEntry (l : lid) (key : pystr) (k : option entry -> prog)
  | PutEntry (l : lid) (key : pystr) (e : entry) (k : prog)
  | CountEntries (l : lid) (k : nat -> prog)         (* iter(self._data.values()) *)
  | NextEntry (l : lid) (size i : nat) (k : stepped (pystr * entry) -> prog)
  | NewObj (k : oid -> prog)                         (* ObjectValidator() *)
  | GetProp (o : oid) (key : pystr) (k : option lid -> prog)
  | PutProp (o : oid) (key : pystr) (l : lid) (k : prog)
  | GetPats (o : oid) (k : option pid -> prog)
  | PutPats (o : oid) (p : pid) (k : prog)
  | NewPats (k : pid -> prog)                        (* CompoundValidator() *)
  | PutPat (p : pid) (key : pystr) (l : lid) (k : prog)
  | CountPats (p : pid) (k : nat -> prog)
  | NextPat (p : pid) (size i : nat) (k : stepped (pystr * lid) -> prog).

  Fixpoint upd {A} (l : list A) (i : nat) (f : A -> A) : list A :=
    match l, i with
    | [], _ => []
    | x :: l', O => f x :: l'
    | x :: l', S i' => x :: upd l' i' f
    end.
  Definition lazy_at (s : world) (l : lid) : option lcell := nth_error (w_lazy s) l.
  Definition obj_at (s : world) (o : oid) : option ocell := nth_error (w_objs s) o.
  Definition entries (s : world) (l : lid) : list (pystr * entry) :=
    match lazy_at s l with Some x => l_data x | None => [] end.
  Definition props (s : world) (o : oid) : list (pystr * lid) :=
    match obj_at s o with Some x => o_props x | None => [] end.
  Definition pats (s : world) (p : pid) : list (pystr * lid) :=
    match nth_error (w_pats s) p with Some x => x | None => [] end.
  Definition set_lazy (s : world) (l : lid) (f : lcell -> lcell) : world :=
    World (w_root s) (upd (w_lazy s) l f) (w_objs s) (w_pats s).
  Definition set_obj (s : world) (o : oid) (f : ocell -> ocell) : world :=
    World (w_root s) (w_lazy s) (upd (w_objs s) o f) (w_pats s).

  (** one step of one thread *)
  Definition step (s : world) (p : prog) : world * prog :=
    match p with
    | Done r => (s, Done r)
    | GetRoot k => (s, k (w_root s))
    | PutRoot l k => (World (Some l) (w_lazy s) (w_objs s) (w_pats s), k)
    | NewLazy n k =>                                                    (* json_core.py:65-69 *)
        (World (w_root s) (w_lazy s ++ [LCell n false []]) (w_objs s) (w_pats s), k (length (w_lazy s)))
    | GetLoaded l k => (s, k (match lazy_at s l with Some x => l_loaded x | None => false end))
    | PutLoaded l k => (set_lazy s l (fun x => LCell (l_node x) true (l_data x)), k)
    | GetNode l k => (s, k (match lazy_at s l with Some x => Some (l_node x) | None => None end))
    | GetEntry l key k => (s, k (dget key (entries s l)))
    | PutEntry l key e k => (set_lazy s l (fun x => LCell (l_node x) (l_loaded x) (dset key e (l_data x))), k)
    | CountEntries l k => (s, k (length (entries s l)))
    | NextEntry l size i k => (s, k (iter_next (entries s l) size i))
    | NewObj k => (World (w_root s) (w_lazy s) (w_objs s ++ [OCell [] None]) (w_pats s), k (length (w_objs s)))
    | GetProp o key k => (s, k (dget key (props s o)))
    | PutProp o key l k => (set_obj s o (fun x => OCell (dset key l (o_props x)) (o_pats x)), k)
    | GetPats o k => (s, k (match obj_at s o with Some x => o_pats x | None => None end))
    | PutPats o p k => (set_obj s o (fun x => OCell (o_props x) (Some p)), k)
    | NewPats k => (World (w_root s) (w_lazy s) (w_objs s) (w_pats s ++ [[]]), k (length (w_pats s)))
    | PutPat p key l k => (World (w_root s) (w_lazy s) (w_objs s) (upd (w_pats s) p (dset key l)), k)
    | CountPats p k => (s, k (length (pats s p)))
    | NextPat p size i k => (s, k (iter_next (pats s p) size i))
    end.

  (** ** What the code does, as a program; [k] is the rest of the thread *)
  (** [for key, child in m.items(): put key (LazyValidator(schema, child))] *)
  Fixpoint fill (put : pystr -> lid -> prog -> prog) (m : list (pystr * node)) (k : prog) : prog :=
    match m with
    | [] => k
    | (key, n) :: m' => NewLazy n (fun l => put key l (fill put m' k))
    end.
  (** [keyword.apply(schema, node, validator)] for the validator [l] *)
  Definition apply_prog (kw : akw) (items : list (pystr * node)) (l : lid) (k : res unit -> prog) : prog :=
    match kw with
    | KwProperties =>                                                   (* properties_keyword.py:11-23 *)
        match (w <- opnd view items (kw_key kw) ;; as_obj w) with
        | Ok m =>
            let finish o := fill (PutProp o) m (PutEntry l (u "properties") (EObj o) (k (Ok tt))) in
            GetEntry l (u "properties") (fun e =>
            match e with
            | Some _ =>
                GetEntry l (u "properties") (fun e' =>
                match e' with
                | Some (EObj o) => finish o
                | Some _ => k (Raise EUnmodelled)
                | None => k (Raise (EKey (u "properties")))
                end)
            | None => NewObj finish
            end)
        | Raise e => k (Raise e)
        | OutOfFuel => k OutOfFuel
        end
    | KwPatternProperties =>                                            (* pattern_properties_keyword.py:11-21 *)
        match (w <- opnd view items (kw_key kw) ;; as_obj w) with
        | Ok m =>
            (* validator["properties"] *)
            let the_obj (k' : oid -> prog) :=
              GetEntry l (u "properties") (fun e =>
              match e with
              | Some (EObj o) => k' o
              | Some _ => k (Raise EUnmodelled)
              | None => k (Raise (EKey (u "properties")))
              end) in
            let rest :=
              the_obj (fun o => NewPats (fun p => PutPats o p
                (fill (fun key x next =>
                         the_obj (fun o' => GetPats o' (fun p' =>
                         match p' with
                         | Some q => PutPat q key x next
                         | None => k (Raise EType)          (* None[key] = ... *)
                         end)))
                      m (k (Ok tt))))) in
            GetEntry l (u "properties") (fun e =>
            match e with
            | Some _ => rest
            | None => NewObj (fun o => PutEntry l (u "properties") (EObj o) rest)
            end)
        | Raise e => k (Raise e)
        | OutOfFuel => k OutOfFuel
        end
    | _ =>
        (* the others only put one finished validator into the table, or none:
           the one [Keywords.apply] puts into an empty table *)
        match apply view strx E kw items [] with
        | Ok [] => k (Ok tt)
        | Ok ((key, o) :: _) => PutEntry l key (ELeaf o) (k (Ok tt))
        | Raise e => k (Raise e)
        | OutOfFuel => k OutOfFuel
        end
    end.
  (** the loop over the vocabulary, json_core.py:79-86 *)
  Fixpoint load_prog (w : nview node) (kws : list akw) (l : lid) (k : res unit -> prog) : prog :=
    match kws with
    | [] => k (Ok tt)
    | kw :: kws' =>
        match can_apply view w (kw_key kw) with
        | Ok true =>
            match nv_val w with
            | NObj items =>
                apply_prog kw items l (fun r =>
                match r with Ok _ => load_prog w kws' l k | Raise e => k (Raise e) | OutOfFuel => k OutOfFuel end)
            | _ => k (Raise EType)
            end
        | Ok false => load_prog w kws' l k
        | Raise e => k (Raise e)
        | OutOfFuel => k OutOfFuel
        end
    end.
  (** [LazyValidator._load_validator], json_core.py:71-88, but for the last line *)
  Definition load_lazy_prog (l : lid) (k : res unit -> prog) : prog :=
    GetNode l (fun on =>
    match on with
    | None => k (Raise EUnmodelled)
    | Some n =>
        match view n with
        | Ok w =>
            match nv_val w with
            | NBool true => k (Ok tt)
            | NBool false => PutEntry l (u "_") (ELeaf VFail) (k (Ok tt))
            | _ => load_prog w voc l k
            end
        | Raise e => k (Raise e)
        | OutOfFuel => k OutOfFuel
        end
    end).

  Section Run.
    (** [validate] of a sub-validator *)
    Variable rec : lid -> pv -> ctx -> (res unit -> prog) -> prog.
    (** go on with [k'], unless an exception is on its way *)
    Definition andthen (k : res unit -> prog) (k' : prog) : res unit -> prog := fun r =>
      match r with Ok _ => k' | Raise e => k (Raise e) | OutOfFuel => k OutOfFuel end.

    (** the loop over the patterns, object_validators.py:65-69 *)
    Fixpoint pats_prog (rem i : nat) (p : pid) (size : nat) (key : pystr) (x : pv) (c : ctx)
        (k : res unit -> prog) : prog :=
      NextPat p size i (fun r =>
      match r with
      | Changed => k (Raise EOther)
      | End => k (Ok tt)
      | Item (pt, l) =>
          match rem with
          | O => k (Raise EUnmodelled)                (* not more items than the size *)
          | S rem' =>
              if re_ok E pt then
                if re_search E pt key
                then rec l x (ctx_add c key) (andthen k (pats_prog rem' (S i) p size key x c k))
                else pats_prog rem' (S i) p size key x c k
              else k (Raise ERe)
          end
      end).
    (** [ObjectValidator.validate], object_validators.py:52-79; none of the
        keywords modelled here sets the other attributes *)
    Fixpoint members_prog (o : oid) (d : list (pystr * pv)) (c : ctx) (k : res unit -> prog) : prog :=
      match d with
      | [] => k (Ok tt)
      | (key, x) :: d' =>
          let next := andthen k (members_prog o d' c k) in
          GetProp o key (fun r =>                                       (* item_key in self *)
          match r with
          | Some _ =>
              GetProp o key (fun r' =>                                  (* self[item_key] *)
              match r' with
              | Some l => rec l x (ctx_add c key) next
              | None => k (Raise (EKey key))
              end)
          | None =>
              GetPats o (fun p =>                                       (* if self.pattern_properties: *)
              match p with
              | None => members_prog o d' c k
              | Some _ =>
                  GetPats o (fun p' =>                                  (* self.pattern_properties.items() *)
                  match p' with
                  | None => k (Raise EAttr)
                  | Some q => CountPats q (fun size => pats_prog size 0 q size key x c next)
                  end)
              end)
          end)
      end.
    Definition entry_prog (e : entry) (v : pv) (c : ctx) (k : res unit -> prog) : prog :=
      match e with
      | ELeaf o => k (run_vobj view E (fun _ _ _ => Raise EUnmodelled) 0 o v c)
      | EObj o => match v with VDict d => members_prog o d c k | _ => k (Ok tt) end
      end.
    (** [CompoundValidator.validate], core_validators.py:86-88 *)
    Fixpoint entries_prog (rem i : nat) (l : lid) (size : nat) (v : pv) (c : ctx) (k : res unit -> prog) : prog :=
      NextEntry l size i (fun r =>
      match r with
      | Changed => k (Raise EOther)
      | End => k (Ok tt)
      | Item (_, e) =>
          match rem with
          | O => k (Raise EUnmodelled)
          | S rem' => entry_prog e v c (andthen k (entries_prog rem' (S i) l size v c k))
          end
      end).
  End Run.

  (** [LazyValidator.validate], json_core.py:90-94; [fuel] bounds the depth of
      the calls, as in [Keywords.validate] *)
  Fixpoint validate_prog (fuel : nat) (l : lid) (v : pv) (c : ctx) (k : res unit -> prog) : prog :=
    match fuel with
    | O => k OutOfFuel
    | S f =>
        let go := CountEntries l (fun size => entries_prog (validate_prog f) size 0 l size v c k) in
        GetLoaded l (fun b =>
        if b then go else load_lazy_prog l (andthen k (PutLoaded l go)))
    end.
  (** [JsonSchema.validate], json_core.py:114-127, on a loaded document with root
      node [n] *)
  Definition call (n : node) (fuel : nat) (v : pv) : prog :=
    match view n with
    | Ok w =>
        match nv_val w with
        | NObj _ =>
            let use := GetRoot (fun r =>
              match r with Some l => validate_prog fuel l v [] Done | None => Done (Raise EAttr) end) in
            GetRoot (fun r => match r with Some _ => use | None => NewLazy n (fun l => PutRoot l use) end)
        | _ => Done (Ok tt)
        end
    | Raise e => Done (Raise e)
    | OutOfFuel => Done OutOfFuel
    end.

  (** ** Interleavings: a schedule says which thread makes the next step *)
  Definition state := (world * list prog)%type.
  Definition step_thread (s : state) (i : nat) : state :=
    let (w, ts) := s in
    match nth_error ts i with
    | Some p => let (w', p') := step w p in (w', upd ts i (fun _ => p'))
    | None => s
    end.
  Definition interleave (sched : list nat) (s : state) : state := fold_left step_thread sched s.
  (** the outcome of a thread, if it has one *)
  Definition outcome (s : state) (i : nat) : option (res unit) :=
    match nth_error (snd s) i with Some (Done r) => Some r | _ => None end.
End Threads.
