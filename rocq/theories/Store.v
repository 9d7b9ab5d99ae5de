(** jsoned/json_store.py, jsoned/uri_loader.py, jsoned/uri_resolver.py *)
From Verif Require Import PyBase Regex Uri.
Local Open Scope N_scope.
Local Notation length := List.length (only parsing).

(** ** [functools.lru_cache()] (maxsize 128), used on [DefaultLoader.resolve]
    (uri_loader.py:49) and [JsonSchema.query] (json_core.py:170).  Entries, least
    recently used first.  A call that raises is not recorded. *)
Section Lru.
  Context {K A : Type} (keqb : K -> K -> bool).
  Definition maxsize : nat := 128.
  Definition lru := list (K * A).
  Fixpoint lru_find (k : K) (c : lru) : option A :=
    match c with
    | [] => None
    | (k', a) :: c' => if keqb k k' then Some a else lru_find k c'
    end.
  Fixpoint lru_drop (k : K) (c : lru) : lru :=
    match c with
    | [] => []
    | (k', a) :: c' => if keqb k k' then c' else (k', a) :: lru_drop k c'
    end.
  Definition lru_put (k : K) (a : A) (c : lru) : lru :=
    if Nat.leb maxsize (length c) then tl c ++ [(k, a)] else c ++ [(k, a)].
  Definition lru_call (f : K -> res A) (k : K) (c : lru) : lru * res A :=
    match lru_find k c with
    | Some a => (lru_drop k c ++ [(k, a)], Ok a)
    | None => match f k with
              | Ok a => (lru_put k a c, Ok a)
              | Raise e => (c, Raise e)
              | OutOfFuel => (c, OutOfFuel)
              end
    end.
End Lru.

(** ** [os.path.join] and [os.path.splitext] (posixpath) *)
Fixpoint path_join (p : pystr) (l : list pystr) : pystr :=
  match l with
  | [] => p
  | b :: l' =>
      path_join (if startswith (u "/") b then b
                 else if str_eqb p [] || endswith (u "/") p then p ++ b
                 else p ++ u "/" ++ b) l'
  end.
(** [genericpath._splitext], the extension: from the last dot if it comes after
    the last slash and some character between them is not a dot *)
Definition after_last (c : N) (s : pystr) : pystr :=
  match upto_last c s with Some w => skipn (S (length w)) s | None => s end.
Definition extension (name : pystr) : pystr :=
  let base := after_last slash name in
  match upto_last 46 base with
  | Some w => if forallb (N.eqb 46) w then [] else skipn (length w) base
  | None => []
  end.

Section Store.
  Variable auth : pystr -> option authority.

  (** ** [MappableUriResolver.resolve], uri_resolver.py:26-48; [maps] is [_map] *)
  Fixpoint first_mapping (s : pystr) (maps : list (pystr * pystr)) : pystr * pystr :=
    match maps with
    | [] => ([], [])
    | (m, p) :: maps' => if startswith m s then (m, p) else first_mapping s maps'
    end.
  Definition plain_path (v : uri) : res pystr :=
    if str_eqb (u_scheme v) [] || str_eqb (u_scheme v) (u "file") then Ok (u_path v) else Raise EValue.
  Definition map_resolve (maps : list (pystr * pystr)) (v : uri) : res pystr :=
    b <- base_uri auth v ;;
    let s := uri_text b in
    let '(m, p) := first_mapping s maps in
    match p with
    | [] => plain_path v
    | _ => Ok (path_join p (split slash (skipn (length m) s)))
    end.

  (** ** [DefaultLoader], uri_loader.py:38-77.  A resolver is anything that
      answers for a URI. *)
  Definition resolver := uri -> res pystr.
  Definition plain_resolve (table : list (pystr * resolver)) (v : uri) : res pystr :=
    match dget (u_scheme v) table with
    | Some r => r v
    | None => plain_path v
    end.

  (** [load_file], lines 68-77, over a file system: reading a file, and the two
      parsers from json and yaml.  [doc value voc] is [JsonSchema(value, voc)]. *)
  Context {T V D : Type} (read : pystr -> res T) (json yaml : T -> res V) (doc : V -> res D).
  Definition load_file (name : pystr) : res D :=
    t <- read name ;;
    let e := extension name in
    v <- (if str_eqb e (u ".yaml") || str_eqb e (u ".yml") then yaml t
          else if str_eqb e (u ".json") then json t
          else Raise EValue) ;;
    doc v.
End Store.

(** ** [JsonStore], json_store.py:13-98.  The loader is any object with a
    [load] method: it may change its own state [L]. *)
Section JsonStore.
  Variable auth : pystr -> option authority.
  Context {D L : Type} (loader : uri -> L -> L * res D).
  Record store := Store { storage : list (pystr * D); loader_state : L }.

  (** str(uri.base_uri) *)
  Definition key_of (v : uri) : res pystr := b <- base_uri auth v ;; Ok (uri_text b).

  (** [add], lines 20-23 *)
  Definition add (v : uri) (d : D) (st : store) : store * res unit :=
    match is_absolute auth v with
    | Ok true => match key_of v with
                 | Ok k => (Store (dset k d (storage st)) (loader_state st), Ok tt)
                 | Raise e => (st, Raise e)
                 | OutOfFuel => (st, OutOfFuel)
                 end
    | Ok false => (st, Raise EValue)
    | Raise e => (st, Raise e)
    | OutOfFuel => (st, OutOfFuel)
    end.
  (** [get], lines 33-39 *)
  Definition get_str (s : pystr) (st : store) : res D :=
    match dget s (storage st) with Some d => Ok d | None => Raise (EKey s) end.
  Definition get (v : uri) (st : store) : res D := k <- key_of v ;; get_str k st.
  (** [__contains__], lines 49-57 *)
  Definition contains_str (s : pystr) (st : store) : bool := dmem s (storage st).
  Definition contains (v : uri) (st : store) : res bool := k <- key_of v ;; Ok (contains_str k st).
  (** [load_uri], lines 80-90 *)
  Definition load_uri (v : uri) (st : store) : store * res D :=
    match key_of v with
    | Ok k =>
        match dget k (storage st) with
        | Some d => (st, Ok d)
        | None =>
            let '(l, r) := loader v (loader_state st) in
            match r with
            | Ok d => (Store (dset k d (storage st)) l, Ok d)
            | Raise EFileNotFound => (Store (storage st) l, Raise ELoad)
            | Raise e => (Store (storage st) l, Raise e)
            | OutOfFuel => (Store (storage st) l, OutOfFuel)
            end
        end
    | Raise e => (st, Raise e)
    | OutOfFuel => (st, OutOfFuel)
    end.
  (** [load], lines 67-78 *)
  Definition load_str (s : pystr) (st : store) : store * res D :=
    match mk_uri auth s with
    | Ok v => load_uri v st
    | Raise e => (st, Raise e)
    | OutOfFuel => (st, OutOfFuel)
    end.
End JsonStore.
