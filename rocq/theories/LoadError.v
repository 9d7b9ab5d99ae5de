(** [JsonLoadError] ([jsoned/errors/json_load_error.py]) and the failures of opening a
    file, for [JsonStore.load] with its own [DefaultLoader]. *)
From Verif Require Import PyBase Regex Uri PropsResolve Store.
Local Open Scope N_scope.
Local Notation length := List.length (only parsing).

(** ** Files: [open(filename, "r")], [uri_loader.py:69], as POSIX resolves names.
    Simplified: no symbolic links, permissions or limits on the length of names; names
    with lone surrogates are not told apart. *)
Inductive file (T : Type) : Type := File (t : T) | Dir (members : list (pystr * file T)).
Arguments File {T} t. Arguments Dir {T} members.
(** where the process is: the working directory and the directories above it, the
    nearest first *)
Definition disk (T : Type) : Type := file T * list (file T).
Definition top {T} (w : disk T) : disk T := (last (snd w) (fst w), []).
Inductive opened (T : Type) : Type :=
| Text (t : T)
| Missing                                 (* FileNotFoundError, its filename is the name given *)
| NotDirectory                            (* NotADirectoryError *)
| IsDirectory                             (* IsADirectoryError *)
| BadName.                                (* ValueError: embedded null byte *)
Arguments Text {T} t. Arguments Missing {T}. Arguments NotDirectory {T}. Arguments IsDirectory {T}. Arguments BadName {T}.
Fixpoint follow {T} (at_ : disk T) (names : list pystr) : opened T :=
  match names with
  | [] => match fst at_ with File t => Text t | Dir _ => IsDirectory end
  | c :: names' =>
      match fst at_ with
      | File _ => NotDirectory
      | Dir l =>
          if str_eqb c [] || str_eqb c (u ".") then follow at_ names'
          else if str_eqb c (u "..") then follow (match snd at_ with [] => at_ | p :: ps => (p, ps) end) names'
          else match dget c l with
               | None => Missing
               | Some e => follow (e, Dir l :: snd at_) names'
               end
      end
  end.
Definition open_file {T} (w : disk T) (name : pystr) : opened T :=
  if existsb (N.eqb 0) name then BadName
  else match name with
       | [] => Missing
       | _ => follow (if startswith (u "/") name then top w else w) (split slash name)
       end.

(** ** [JsonLoadError.for_invalid_file], lines 21-29: the text and [error.uri] *)
Record load_error := LoadError { le_text : pystr; le_uri : uri }.
Definition for_invalid_file (v : uri) (filename : pystr) : load_error :=
  LoadError (u "Could not load document from given uri `" ++ uri_text v ++ u "`. Corresponding file `" ++ filename ++ u "` does not exists") v.

Inductive fault := NotADirectory | IsADirectory | Other (e : exn) | NoFuel.
Inductive outcome (D : Type) : Type := Loaded (d : D) | NotFound (e : load_error) | Fails (f : fault).
Arguments Loaded {D} d. Arguments NotFound {D} e. Arguments Fails {D} f.

Section Load.
  Variable auth : pystr -> option authority.
  Context {T V D : Type} (json yaml : T -> res V) (doc : V -> res D).
  (** [e.filename] of a FileNotFoundError that a resolver or parser raises itself *)
  Variable lost : pystr.
  (** the documents of the store, the resolvers registered with its loader, and what
      the cache on [DefaultLoader.resolve] remembers of this loader *)
  Record lstate := LState { ls_docs : list (pystr * D); ls_table : list (pystr * resolver); ls_cache : @lru uri pystr }.

  (** an exception that leaves [self.loader.load], [json_store.py:89-90] *)
  Definition told (v : uri) (e : exn) : outcome D :=
    match e with EFileNotFound => NotFound (for_invalid_file v lost) | _ => Fails (Other e) end.
  (** [load_uri], [json_store.py:80-90], with [DefaultLoader.load] and [load_file],
      [uri_loader.py:49-77] *)
  Definition load_told (v : uri) (w : disk T) (st : lstate) : lstate * outcome D :=
    match key_of auth v with
    | Ok k =>
        match dget k (ls_docs st) with
        | Some d => (st, Loaded d)
        | None =>
            let '(c, r) := lru_call uri_eq (plain_resolve (ls_table st)) v (ls_cache st) in
            let st' := LState (ls_docs st) (ls_table st) c in
            match r with
            | Ok name =>
                match open_file w name with
                | Missing => (st', NotFound (for_invalid_file v name))
                | NotDirectory => (st', Fails NotADirectory)
                | IsDirectory => (st', Fails IsADirectory)
                | BadName => (st', Fails (Other EValue))
                | Text t =>
                    match load_file (fun _ => Ok t) json yaml doc name with
                    | Ok d => (LState (dset k d (ls_docs st)) (ls_table st) c, Loaded d)
                    | Raise e => (st', told v e)
                    | OutOfFuel => (st', Fails NoFuel)
                    end
                end
            | Raise e => (st', told v e)
            | OutOfFuel => (st', Fails NoFuel)
            end
        end
    | Raise e => (st, Fails (Other e))
    | OutOfFuel => (st, Fails NoFuel)
    end.
  (** [DefaultLoader.register], [uri_loader.py:46-47] *)
  Definition register (scheme : pystr) (r : resolver) (st : lstate) : lstate :=
    LState (ls_docs st) (dset scheme r (ls_table st)) (ls_cache st).

  (** the same loader for Store.v's [load_uri], which does not tell the failures apart *)
  Definition read_file (w : disk T) (name : pystr) : res T :=
    match open_file w name with
    | Text t => Ok t
    | Missing => Raise EFileNotFound
    | NotDirectory | IsDirectory => Raise EOther
    | BadName => Raise EValue
    end.
  Definition default_loader (w : disk T) (v : uri) (l : list (pystr * resolver) * @lru uri pystr) : (list (pystr * resolver) * @lru uri pystr) * res D :=
    let '(c, r) := lru_call uri_eq (plain_resolve (fst l)) v (snd l) in
    ((fst l, c), name <- r ;; load_file (read_file w) json yaml doc name).
End Load.
Arguments LState {D}. Arguments ls_docs {D}. Arguments ls_table {D}. Arguments ls_cache {D}. Arguments register {D}.
