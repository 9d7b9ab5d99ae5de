(** Validator objects with their state: [LazyValidator] remembers what it built
    ([json_core.py:64-94]).  [Validators.v] and [Keywords.v] describe what one
    call computes from scratch; here every lazy validator is a mutable object
    that survives calls, exceptions included. *)
From Verif Require Import PyBase PyVal Errors Validators Keywords.
Local Open Scope Z_scope.

Section Memory.
  Context {node : Type} (view : node -> res (nview node)) (strx : node -> pystr) (E : env).
  Variable voc : list akw.

  Definition lid := nat.                       (* identity of a LazyValidator *)
  (** [_loaded] and [_data].  Before it is loaded none of the sub-validators in
      [_data] can be reached by a call, so there they are still written as the
      nodes they are for; they get their identities when loading completes.
      (In Python they are allocated one by one while loading.) *)
  Inductive lstate :=
  | Building (d : list (pystr * vobj node node))
  | Ready (d : list (pystr * vobj node lid)).
  Record cell := Cell { c_node : node; c_state : lstate }.
  Record heap := Heap { cells : nat -> cell; next : nat }.

  Definition M (A : Type) := heap -> heap * res A.
  Definition retM {A} (r : res A) : M A := fun h => (h, r).
  Definition bindM {A B} (m : M A) (k : A -> M B) : M B := fun h =>
    let (h', r) := m h in
    match r with
    | Ok x => k x h'
    | Raise e => (h', Raise e)
    | OutOfFuel => (h', OutOfFuel)
    end.
  Fixpoint forM {A} (f : A -> M unit) (l : list A) : M unit :=
    match l with
    | [] => retM (Ok tt)
    | x :: l' => bindM (f x) (fun _ => forM f l')
    end.

  (** ** Allocation: [LazyValidator(schema, node)], [json_core.py:65-69] *)
  Definition set_cell (l : lid) (x : cell) (h : heap) : heap :=
    Heap (fun i => if Nat.eqb i l then x else cells h i) (next h).
  Definition alloc (n : node) (h : heap) : heap * lid :=
    (Heap (fun i => if Nat.eqb i (next h) then Cell n (Building []) else cells h i) (S (next h)), next h).
  Fixpoint alloc_list (l : list node) (h : heap) : heap * list lid :=
    match l with
    | [] => (h, [])
    | n :: l' => let (h1, x) := alloc n h in let (h2, xs) := alloc_list l' h1 in (h2, x :: xs)
    end.
  Fixpoint alloc_assoc (l : list (pystr * node)) (h : heap) : heap * list (pystr * lid) :=
    match l with
    | [] => (h, [])
    | (k, n) :: l' => let (h1, x) := alloc n h in let (h2, xs) := alloc_assoc l' h1 in (h2, (k, x) :: xs)
    end.
  Definition alloc_opt {A B} (f : A -> heap -> heap * B) (o : option A) (h : heap) : heap * option B :=
    match o with
    | None => (h, None)
    | Some x => let (h1, y) := f x h in (h1, Some y)
    end.
  Definition alloc_sub (s : sub node) (h : heap) : heap * sub lid :=
    match s with
    | SFail => (h, SFail)
    | SLazy n => let (h1, x) := alloc n h in (h1, SLazy x)
    end.
  Definition alloc_vobj (o : vobj node node) (h : heap) : heap * vobj node lid :=
    match o with
    | VFail => (h, VFail)
    | VType ts => (h, VType ts)
    | VEnum l => (h, VEnum l)
    | VConst x => (h, VConst x)
    | VMaximum d ex => (h, VMaximum d ex)
    | VMinimum d ex => (h, VMinimum d ex)
    | VMultipleOf d => (h, VMultipleOf d)
    | VMinLength n => (h, VMinLength n)
    | VMaxLength n => (h, VMaxLength n)
    | VFormat f => (h, VFormat f)
    | VPattern p => (h, VPattern p)
    | VRequired names => (h, VRequired names)
    | VMinProps n => (h, VMinProps n)
    | VMaxProps n => (h, VMaxProps n)
    | VObject o =>
        let (h1, a) := alloc_assoc (ov_data o) h in
        let (h2, b) := alloc_opt alloc_sub (ov_addl o) h1 in
        let (h3, c) := alloc_opt alloc_assoc (ov_pat o) h2 in
        let (h4, d) := alloc_opt alloc (ov_names o) h3 in
        (h4, VObject (ObjV a b c (ov_uneval o) d))
    | VDepRequired m => (h, VDepRequired m)
    | VDepSchemas m => let (h1, a) := alloc_assoc m h in (h1, VDepSchemas a)
    | VArray it pre =>
        let (h1, a) := alloc_opt alloc it h in
        let (h2, b) := alloc_opt alloc_list pre h1 in
        (h2, VArray a b)
    | VContains n mn mx => let (h1, a) := alloc n h in (h1, VContains a mn mx)
    | VMinItems n => (h, VMinItems n)
    | VMaxItems n => (h, VMaxItems n)
    | VUnique => (h, VUnique)
    | VAllOf l => let (h1, a) := alloc_list l h in (h1, VAllOf a)
    | VAnyOf l => let (h1, a) := alloc_list l h in (h1, VAnyOf a)
    | VOneOf l => let (h1, a) := alloc_list l h in (h1, VOneOf a)
    | VNot n => let (h1, a) := alloc n h in (h1, VNot a)
    | VCond k =>
        let (h1, a) := alloc_opt alloc (cv_if k) h in
        let (h2, b) := alloc_opt alloc (cv_then k) h1 in
        let (h3, c) := alloc_opt alloc (cv_else k) h2 in
        (h3, VCond (CondV a b c))
    end.
  Fixpoint alloc_table (d : list (pystr * vobj node node)) (h : heap) : heap * list (pystr * vobj node lid) :=
    match d with
    | [] => (h, [])
    | (k, o) :: d' => let (h1, x) := alloc_vobj o h in let (h2, xs) := alloc_table d' h1 in (h2, (k, x) :: xs)
    end.

  (** ** [LazyValidator._load_validator], [json_core.py:71-88]: the entries set
      before an exception stay in [_data]. *)
  Fixpoint load_kws (w : nview node) (l : list akw) (d : list (pystr * vobj node node))
    : list (pystr * vobj node node) * res unit :=
    match l with
    | [] => (d, Ok tt)
    | k :: l' =>
        match step_kw view strx E w k d with
        | Ok d' => load_kws w l' d'
        | Raise e => (d, Raise e)
        | OutOfFuel => (d, OutOfFuel)
        end
    end.
  Definition load_lazy (n : node) (d : list (pystr * vobj node node)) : list (pystr * vobj node node) * res unit :=
    match view n with
    | Raise e => (d, Raise e)
    | OutOfFuel => (d, OutOfFuel)
    | Ok w =>
        match nv_val w with
        | NBool b => ((if b then d else dset (u "_") VFail d), Ok tt)
        | _ => load_kws w voc d
        end
    end.

  (** ** The validators that call others, as in [Validators.v] but passing the
      state along (same lines of the sources). *)
  Section Run.
    Variable rec : lid -> pv -> ctx -> M unit.

    Definition tryM (m : M unit) : M (option verr) := fun h =>
      let (h', r) := m h in (h', try_valid r).
    Definition run_subM (s : sub lid) (v : pv) (c : ctx) : M unit :=
      match s with
      | SFail => retM (raise_verr KFail (ctx_path c))
      | SLazy n => rec n v c
      end.
    Fixpoint pattern_loopM (pats : list (pystr * lid)) (k : pystr) (x : pv) (c : ctx) (evaluated : bool) : M bool :=
      match pats with
      | [] => retM (Ok evaluated)
      | (p, n) :: pats' =>
          if re_ok E p then
            if re_search E p k then bindM (rec n x (ctx_add c k)) (fun _ => pattern_loopM pats' k x c true)
            else pattern_loopM pats' k x c evaluated
          else retM (Raise ERe)
      end.
    Definition member_validateM (o : objv lid) (c : ctx) (kx : pystr * pv) : M unit :=
      let (k, x) := kx in
      bindM (match ov_names o with
             | Some n => rec n (VStr k) (ctx_add c k)
             | None => retM (Ok tt)
             end) (fun _ =>
      match dget k (ov_data o) with
      | Some n => rec n x (ctx_add c k)
      | None =>
          bindM (match ov_pat o with
                 | Some pats => pattern_loopM pats k x c false
                 | None => retM (Ok false)
                 end) (fun evaluated =>
          if evaluated then retM (Ok tt)
          else match ov_addl o with
               | Some s => run_subM s x (ctx_add c k)
               | None =>
                   if ov_uneval o then retM (raise_verr KFail (ctx_path (ctx_add c k))) else retM (Ok tt)
               end)
      end).
    Definition object_validateM (o : objv lid) (v : pv) (c : ctx) : M unit :=
      match v with
      | VDict d => forM (member_validateM o c) d
      | _ => retM (Ok tt)
      end.
    Definition dep_schemas_validateM (m : list (pystr * lid)) (v : pv) (c : ctx) : M unit :=
      match v with
      | VDict d => forM (fun '(key, n) => if dmem key d then rec n v c else retM (Ok tt)) m
      | _ => retM (Ok tt)
      end.
    Fixpoint prefix_loopM (lf : nat) (ps : list lid) (vals : list pv) (i : nat) (c : ctx) : M nat :=
      match lf with
      | O => retM OutOfFuel
      | S lf' =>
          match nth_error ps i with
          | None => retM (Ok i)
          | Some p =>
              match nth_error vals i with
              | None => bindM (rec p VNone (ctx_add c (nat_str i))) (fun _ => prefix_loopM lf' ps vals i c)
              | Some x => bindM (rec p x (ctx_add c (nat_str i))) (fun _ => prefix_loopM lf' ps vals (S i) c)
              end
          end
      end.
    Fixpoint items_loopM (n : lid) (vals : list pv) (i : nat) (c : ctx) : M unit :=
      match vals with
      | [] => retM (Ok tt)
      | x :: vals' => bindM (rec n x (ctx_add c (nat_str i))) (fun _ => items_loopM n vals' (S i) c)
      end.
    Definition array_validateM (lf : nat) (items : option lid) (prefix : option (list lid)) (v : pv) (c : ctx) : M unit :=
      match v with
      | VList vals =>
          bindM (match prefix with
                 | None | Some [] => retM (Ok O)
                 | Some ps => prefix_loopM lf ps vals 0 c
                 end) (fun i =>
          match items with
          | None => retM (Ok tt)
          | Some n => items_loopM n (skipn i vals) i c
          end)
      | _ => retM (raise_verr (KType [u "array"]) [])
      end.
    Fixpoint count_validM (n : lid) (l : list pv) : M Z :=
      match l with
      | [] => retM (Ok 0)
      | x :: l' =>
          bindM (tryM (rec n x [])) (fun r =>
          bindM (count_validM n l') (fun k =>
          retM (Ok (match r with None => 1 + k | Some _ => k end))))
      end.
    Definition contains_validateM (n : lid) (mn : Z) (mx : option Z) (v : pv) (c : ctx) : M unit :=
      bindM (retM (py_iter v)) (fun l =>
      bindM (count_validM n l) (fun k =>
      retM (if k <? mn then raise_verr (KMinContains mn) (ctx_path c)
            else match mx with
                 | Some m => if negb (m =? 0) && (k >? m) then raise_verr (KMaxContains m) (ctx_path c)
                             else Ok tt
                 | None => Ok tt
                 end))).
    Fixpoint anyof_loopM (l : list lid) (v : pv) (c : ctx) (last : option verr) : M unit :=
      match l with
      | [] => retM (match last with Some e => Raise (EValid e) | None => Raise EType end)
      | n :: l' =>
          bindM (tryM (rec n v c)) (fun r =>
          match r with
          | None => retM (Ok tt)
          | Some e => anyof_loopM l' v c (Some e)
          end)
      end.
    Fixpoint oneof_loopM (l : list lid) (v : pv) (c : ctx) (valid : nat) (last : option verr) : M unit :=
      match l with
      | [] =>
          retM (match valid with
                | O => match last with Some e => Raise (EValid e) | None => Raise EType end
                | S O => Ok tt
                | S (S _) => raise_verr KOneOf (ctx_path c)
                end)
      | n :: l' =>
          bindM (tryM (rec n v c)) (fun r =>
          match r with
          | None => oneof_loopM l' v c (S valid) last
          | Some e => oneof_loopM l' v c valid (Some e)
          end)
      end.
    Definition not_validateM (n : lid) (v : pv) (c : ctx) : M unit :=
      bindM (tryM (rec n v c)) (fun r =>
      match r with
      | Some _ => retM (Ok tt)
      | None => retM (raise_verr KNot (ctx_path c))
      end).
    Definition cond_validateM (k : condv lid) (v : pv) (c : ctx) : M unit :=
      match cv_if k with
      | None => retM (Ok tt)
      | Some i =>
          bindM (tryM (rec i v c)) (fun r =>
          match r with
          | Some _ =>
              match cv_else k with
              | Some n => rec n v c
              | None => retM (Raise (EKey (u "else")))
              end
          | None =>
              match cv_then k with
              | Some n => rec n v c
              | None => retM (Ok tt)
              end
          end)
      end.
    (** validators without sub-validators have no state *)
    Definition run_vobjM (lf : nat) (o : vobj node lid) (v : pv) (c : ctx) : M unit :=
      match o with
      | VFail => retM (raise_verr KFail (ctx_path c))
      | VType ts => retM (type_validate ts v c)
      | VEnum l => retM (enum_validate view l v c)
      | VConst x => retM (const_validate view x v c)
      | VMaximum d ex => retM (maximum_validate d ex v c)
      | VMinimum d ex => retM (minimum_validate d ex v c)
      | VMultipleOf d => retM (multiple_of_validate E d v c)
      | VMinLength n => retM (min_len_validate (KMinLength n) n v c)
      | VMaxLength n => retM (max_len_validate (KMaxLength n) n v c)
      | VFormat f => retM (format_validate E f v c)
      | VPattern p => retM (pattern_validate E p v c)
      | VRequired names => retM (required_validate names v c)
      | VMinProps n => retM (min_len_validate (KMinProps n) n v c)
      | VMaxProps n => retM (max_len_validate (KMaxProps n) n v c)
      | VObject o => object_validateM o v c
      | VDepRequired m => retM (dep_required_validate m v c)
      | VDepSchemas m => dep_schemas_validateM m v c
      | VArray items prefix => array_validateM lf items prefix v c
      | VContains n mn mx => contains_validateM n mn mx v c
      | VMinItems n => retM (min_len_validate (KMinItems n) n v c)
      | VMaxItems n => retM (max_len_validate (KMaxItems n) n v c)
      | VUnique => retM (unique_validate v c)
      | VAllOf l => forM (fun n => rec n v c) l
      | VAnyOf l => anyof_loopM l v c None
      | VOneOf l => oneof_loopM l v c 0 None
      | VNot n => not_validateM n v c
      | VCond k => cond_validateM k v c
      end.
  End Run.

  (** [LazyValidator.validate], [json_core.py:90-94] *)
  Fixpoint validateM (fuel : nat) (l : lid) (v : pv) (c : ctx) : M unit := fun h =>
    match fuel with
    | O => (h, OutOfFuel)
    | S f =>
        match c_state (cells h l) with
        | Ready d => forM (fun kv => run_vobjM (validateM f) f (snd kv) v c) d h
        | Building d0 =>
            let n := c_node (cells h l) in
            match load_lazy n d0 with
            | (d, Ok _) =>
                let (h1, d') := alloc_table d h in
                forM (fun kv => run_vobjM (validateM f) f (snd kv) v c) d' (set_cell l (Cell n (Ready d')) h1)
            | (d, Raise e) => (set_cell l (Cell n (Building d)) h, Raise e)
            | (d, OutOfFuel) => (set_cell l (Cell n (Building d)) h, OutOfFuel)
            end
        end
    end.

  (** A [JsonSchema] whose root is an object keeps one root validator
      ([json_core.py:114-127]): a session of [validate] calls on it. [fuel] is
      the recursion depth available to each call. *)
  Definition fresh (n : node) : heap := Heap (fun _ => Cell n (Building [])) 1.
  Fixpoint after (calls : list (nat * pv)) (h : heap) : heap :=
    match calls with
    | [] => h
    | (fuel, v) :: calls' => after calls' (fst (validateM fuel 0%nat v [] h))
    end.
End Memory.
