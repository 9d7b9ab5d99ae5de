(** C121: how a document that cannot be found is reported. *)
From Verif Require Import PyBase PyBaseFacts Regex Uri PropsResolve PropsUriEx Store PropsFiles LoadError.
Local Open Scope N_scope.
Local Notation length := List.length (only parsing).

(** ** The specification *)
(** following the names of a path, from a directory *)
Definition ordinary (c : pystr) : Prop := c <> [] /\ c <> u "." /\ c <> u "..".
Inductive leads {T} : disk T -> list pystr -> disk T -> Prop :=
| l_here p : leads p [] p
| l_stay l up c cs q : c = [] \/ c = u "." -> leads (Dir l, up) cs q -> leads (Dir l, up) (c :: cs) q
| l_up l p ps cs q : leads (p, ps) cs q -> leads (Dir l, p :: ps) (u ".." :: cs) q
| l_top l cs q : leads (Dir l, []) cs q -> leads (Dir l, []) (u ".." :: cs) q
| l_in l up c e cs q : ordinary c -> dget c l = Some e -> leads (e, Dir l :: up) cs q -> leads (Dir l, up) (c :: cs) q.
(** an absolute name starts from the directory above all others *)
Definition from {T} (w : disk T) (name : pystr) : disk T := match name with 47 :: _ => (last (snd w) (fst w), []) | _ => w end.
(** there is a file of this name, with this text *)
Definition present {T} (w : disk T) (name : pystr) (t : T) : Prop := name <> [] /\ exists up, leads (from w name) (split 47 name) (File t, up).
(** a part of the path is not there *)
Definition absent {T} (w : disk T) (name : pystr) : Prop :=
  name = [] \/ exists before c after l up, split 47 name = before ++ c :: after /\ leads (from w name) before (Dir l, up) /\ ordinary c /\ dget c l = None.
(** a part of the path is a file, and more follows *)
Definition through_file {T} (w : disk T) (name : pystr) : Prop :=
  name <> [] /\ exists before c after t up, split 47 name = before ++ c :: after /\ leads (from w name) before (File t, up).
Definition a_directory {T} (w : disk T) (name : pystr) : Prop :=
  name <> [] /\ exists l up, leads (from w name) (split 47 name) (Dir l, up).

(** ** Opening *)
Section Open.
  Context {T : Type}.
  Implicit Types (p q : disk T) (cs : list pystr).
  Lemma follow_leads p a q : leads p a q -> forall b, follow p (a ++ b) = follow q b.
  Proof.
    induction 1 as [p|l up c cs q [-> | ->] _ IH|l p ps cs q _ IH|l cs q _ IH|l up c e cs q (O1 & O2 & O3) G _ IH]; intro b; cbn [app]; [reflexivity|exact (IH b)..|].
    cbn [follow fst snd]. destruct (str_eqb c []) eqn:E1; [apply str_eqb_eq in E1; contradiction|]. destruct (str_eqb c (u ".")) eqn:E2; [apply str_eqb_eq in E2; contradiction|].
    destruct (str_eqb c (u "..")) eqn:E3; [apply str_eqb_eq in E3; contradiction|]. cbn [orb]. rewrite G. exact (IH b).
  Qed.
  Lemma follow_cases cs : forall p, match follow p cs with
    | Text t => exists up, leads p cs (File t, up)
    | Missing => exists before c after l up, cs = before ++ c :: after /\ leads p before (Dir l, up) /\ ordinary c /\ dget c l = None
    | NotDirectory => exists before c after t up, cs = before ++ c :: after /\ leads p before (File t, up)
    | IsDirectory => exists l up, leads p cs (Dir l, up)
    | BadName => False
    end.
  Proof.
    assert (K : forall c cs p p', (forall ds q, leads p' ds q -> leads p (c :: ds) q) ->
      match follow p' cs with
      | Text t => exists up, leads p' cs (File t, up)
      | Missing => exists before c after l up, cs = before ++ c :: after /\ leads p' before (Dir l, up) /\ ordinary c /\ dget c l = None
      | NotDirectory => exists before c after t up, cs = before ++ c :: after /\ leads p' before (File t, up)
      | IsDirectory => exists l up, leads p' cs (Dir l, up) | BadName => False end ->
      match follow p' cs with
      | Text t => exists up, leads p (c :: cs) (File t, up)
      | Missing => exists before c0 after l up, c :: cs = before ++ c0 :: after /\ leads p before (Dir l, up) /\ ordinary c0 /\ dget c0 l = None
      | NotDirectory => exists before c0 after t up, c :: cs = before ++ c0 :: after /\ leads p before (File t, up)
      | IsDirectory => exists l up, leads p (c :: cs) (Dir l, up) | BadName => False end).
    { intros c ds p p' L. destruct (follow p' ds).
      - intros (up & H). eauto.
      - intros (b & x & a & l & up & -> & H & O). exists (c :: b), x, a, l, up. split; [reflexivity|]. split; [apply L, H|exact O].
      - intros (b & x & a & t & up & -> & H). exists (c :: b), x, a, t, up. split; [reflexivity|apply L, H].
      - intros (l & up & H). eauto.
      - auto. }
    induction cs as [|c cs IH]; intros [e up]; cbn [follow fst snd].
    - destruct e; eauto using l_here.
    - destruct e as [t|l]; [exists [], c, cs, t, up; split; [reflexivity|constructor]|].
      destruct (str_eqb c [] || str_eqb c (u ".")) eqn:E.
      + apply (K c cs (Dir l, up) (Dir l, up)); [|apply IH]. intros ds q H. apply l_stay; [|exact H]. apply orb_prop in E as [E|E]; apply str_eqb_eq in E; auto.
      + apply orb_false_iff in E as [E1 E2]. destruct (str_eqb c (u "..")) eqn:E3.
        * apply str_eqb_eq in E3 as ->. apply K; [|apply IH]. intros ds q H. destruct up; constructor; exact H.
        * assert (O : ordinary c) by (repeat split; intro C; apply str_eqb_eq in C; congruence).
          destruct (dget c l) as [e|] eqn:G; [|exists [], c, cs, l, up; split; [reflexivity|]; split; [constructor|]; split; [exact O|exact G]].
          apply K; [|apply IH]. intros ds q H. eapply l_in; eassumption.
  Qed.
  Lemma from_eq (w : disk T) name : (if startswith (u "/") name then top w else w) = from w name.
  Proof. destruct name as [|c name]; [reflexivity|]. cbn [startswith]. unfold from, top. destruct (N.eqb_spec 47 c) as [<-|N]; cbn [andb]; [destruct name; reflexivity|]. destruct c as [|c]; [reflexivity|]. repeat (destruct c as [c|c|]; try reflexivity). all: contradiction. Qed.
  (** opening a file, for every tree of directories, working directory and name *)
  Theorem open_exact (w : disk T) name : ~ In 0 name ->
    (open_file w name = Missing <-> absent w name) /\ (forall t, open_file w name = Text t <-> present w name t) /\
    (open_file w name = NotDirectory <-> through_file w name) /\ (open_file w name = IsDirectory <-> a_directory w name).
  Proof.
    intro Z. unfold open_file. destruct (existsb (N.eqb 0) name) eqn:X; [apply existsb_exists in X as (c & I & C); apply N.eqb_eq in C; subst; contradiction|].
    unfold absent, present, through_file, a_directory.
    destruct name as [|c0 name]; [split; [tauto|]; split; [|split]; try intro t; (split; [discriminate|intros [[] _]; reflexivity])|].
    rewrite from_eq. change slash with 47. set (n := c0 :: name) in *. set (cs := split 47 n). set (p := from w n). assert (Nn : n <> []) by discriminate. pose proof (follow_cases cs p) as F. split; [|split; [|split]].
    - split; [intro E; rewrite E in F; right; exact F|]. intros [C|(b & c & a & l & up & E & L & (O1 & O2 & O3) & G)]; [contradiction|]. fold cs in E. fold p in L. rewrite E, (follow_leads _ _ _ L). cbn [follow fst snd].
      destruct (str_eqb c []) eqn:E1; [apply str_eqb_eq in E1; contradiction|]. destruct (str_eqb c (u ".")) eqn:E2; [apply str_eqb_eq in E2; contradiction|]. destruct (str_eqb c (u "..")) eqn:E3; [apply str_eqb_eq in E3; contradiction|]. cbn [orb]. rewrite G. reflexivity.
    - intro t. split; [intro E; rewrite E in F; auto|]. intros (_ & up & L). rewrite <- (app_nil_r cs), (follow_leads _ _ _ L). reflexivity.
    - split; [intro E; rewrite E in F; auto|]. intros (_ & b & c & a & t & up & E & L). fold cs in E. fold p in L. rewrite E, (follow_leads _ _ _ L). reflexivity.
    - split; [intro E; rewrite E in F; auto|]. intros (_ & l & up & L). rewrite <- (app_nil_r cs), (follow_leads _ _ _ L). reflexivity.
  Qed.
End Open.

(** ** C121 *)
Section Report.
  Variable auth : pystr -> option authority.
  Context {T V D : Type} (json yaml : T -> res V) (doc : V -> res D) (lost : pystr).
  Notation load := (load_told auth json yaml doc lost).
  (** the file looked for: the one the loader answered for this URI before and still
      remembers, or the one the resolvers give *)
  Definition looked_for (st : @lstate D) (v : uri) (name : pystr) : Prop :=
    lru_find uri_eq v (ls_cache st) = Some name \/ (lru_find uri_eq v (ls_cache st) = None /\ plain_resolve (ls_table st) v = Ok name).
  (** the resolvers, parsers and [JsonSchema] do not raise FileNotFoundError *)
  Definition own_errors {A B} (f : A -> res B) : Prop := forall a, f a <> Raise EFileNotFound.
  Hypothesis Json : own_errors json.
  Hypothesis Yaml : own_errors yaml.
  Hypothesis Doc : own_errors doc.

  Lemma looked_call (st : @lstate D) v : match snd (lru_call uri_eq (plain_resolve (ls_table st)) v (ls_cache st)) with
    | Ok name => forall n, looked_for st v n <-> n = name
    | Raise e => (forall n, ~ looked_for st v n) /\ plain_resolve (ls_table st) v = Raise e
    | OutOfFuel => forall n, ~ looked_for st v n
    end.
  Proof.
    unfold looked_for, lru_call. destruct (lru_find uri_eq v (ls_cache st)) as [a|]; cbn [snd].
    - intro n. split; [intros [[= ->]|[C _]]; [reflexivity|discriminate C]|intros ->; auto].
    - destruct (plain_resolve (ls_table st) v) as [a|e|]; cbn [snd].
      + intro n. split; [intros [C|[_ [= ->]]]; [discriminate C|reflexivity]|intros ->; auto].
      + split; [|reflexivity]. intros n [C|[_ C]]; discriminate C.
      + intros n [C|[_ C]]; discriminate C.
  Qed.
  Lemma load_file_own name t : load_file (fun _ => Ok t) json yaml doc name <> Raise EFileNotFound.
  Proof.
    unfold load_file. cbn [bind]. assert (K : forall r, r <> Raise EFileNotFound -> bind r doc <> Raise EFileNotFound) by (intros [x|e|] H; cbn [bind]; [apply Doc|intros [= ->]; apply H; reflexivity|discriminate]).
    apply K. destruct (_ || _); [apply Yaml|]. destruct (str_eqb _ _); [apply Json|discriminate].
  Qed.
  (** What a call of load does, in every state of the store and on every disk *)
  Theorem C121_report_partial v w st st' r : own_errors (plain_resolve (ls_table st)) -> (forall name, looked_for st v name -> ~ In 0 name) ->
    load v w st = (st', r) ->
    (* raised exactly when nothing is stored and a part of the file's path is not there *)
    ((exists e, r = NotFound e) <-> exists k name, key_of auth v = Ok k /\ dget k (ls_docs st) = None /\ looked_for st v name /\ absent w name) /\
    (* the error tells the URI asked for and the file looked for; nothing is stored *)
    (forall e, r = NotFound e -> ls_docs st' = ls_docs st /\ le_uri e = v /\ exists name, looked_for st v name /\
       le_text e = u "Could not load document from given uri `" ++ uri_text v ++ u "`. Corresponding file `" ++ name ++ u "` does not exists") /\
    (* the failures that are not reported so, although no such file is there *)
    (r = Fails NotADirectory <-> exists k name, key_of auth v = Ok k /\ dget k (ls_docs st) = None /\ looked_for st v name /\ through_file w name) /\
    (r = Fails IsADirectory <-> exists k name, key_of auth v = Ok k /\ dget k (ls_docs st) = None /\ looked_for st v name /\ a_directory w name).
  Proof.
    intros Own Z H. unfold load_told in H. destruct (key_of auth v) as [k|e|] eqn:Ek.
    2,3: injection H as <- <-; repeat split; first [intros [? C]; discriminate C|intros (? & ? & C & _); discriminate C|discriminate|intros ? C; discriminate C].
    destruct (dget k (ls_docs st)) as [d|] eqn:G.
    { injection H as <- <-. repeat split; first [intros [? C]; discriminate C|intros (? & ? & [= <-] & C & _); congruence|discriminate|intros; discriminate]. }
    pose proof (looked_call st v) as L. destruct (lru_call _ _ _ _) as [c r0] eqn:Ec. cbn [snd] in L.
    destruct r0 as [name|e|].
    - assert (Lf : looked_for st v name) by (apply L; reflexivity). pose proof (open_exact w name (Z name Lf)) as (O1 & O2 & O3 & O4).
      assert (Q : forall P : pystr -> Prop, (exists k0 n, Ok k = Ok k0 /\ dget k0 (ls_docs st) = None /\ looked_for st v n /\ P n) <-> P name).
      { intro P. split; [intros (k0 & n & _ & _ & Hn & Hp); apply L in Hn as ->; exact Hp|intro Hp; exists k, name; auto]. }
      rewrite (Q (absent w)), (Q (through_file w)), (Q (a_directory w)), <- O1, <- O3, <- O4.
      destruct (open_file w name) as [t| | | |] eqn:Eo.
      + pose proof (load_file_own name t) as Nf. destruct (load_file _ _ _ _ _) as [d|e|]; injection H as <- <-; try (repeat split; first [intros [? C]; discriminate C|intro C; discriminate C|intros ? C; discriminate C|discriminate]).
        assert (N : told lost v e = @Fails D (Other e)) by (destruct e; try reflexivity; contradiction). rewrite N. repeat split; first [intros [? C]; discriminate C|intro C; discriminate C|intros ? C; discriminate C|discriminate].
      + injection H as <- <-. split; [split; eauto|]. split; [|split; split; discriminate]. intros e [= <-]. split; [reflexivity|]. split; [reflexivity|]. exists name. split; [exact Lf|reflexivity].
      + injection H as <- <-. repeat split; first [intros [? C]; discriminate C|intro C; discriminate C|intros ? C; discriminate C|discriminate|reflexivity].
      + injection H as <- <-. repeat split; first [intros [? C]; discriminate C|intro C; discriminate C|intros ? C; discriminate C|discriminate|reflexivity].
      + injection H as <- <-. repeat split; first [intros [? C]; discriminate C|intro C; discriminate C|intros ? C; discriminate C|discriminate|reflexivity].
    - destruct L as [L Le]. assert (N : told lost v e = @Fails D (Other e)) by (specialize (Own v); rewrite Le in Own; destruct e; try reflexivity; contradiction).
      injection H as <- <-. rewrite N. repeat split; first [intros [? C]; discriminate C|intros (? & ? & _ & _ & C & _); destruct (L _ C)|discriminate|intros ? C; discriminate C].
    - injection H as <- <-. repeat split; first [intros [? C]; discriminate C|intros (? & ? & _ & _ & C & _); destruct (L _ C)|discriminate|intros ? C; discriminate C].
  Qed.
End Report.

(** telling the failures apart changes nothing else: Store.v's [load_uri] with the same
    loader does the same *)
Definition untold {D} (r : outcome D) : res D :=
  match r with Loaded d => Ok d | NotFound _ => Raise ELoad | Fails (NotADirectory | IsADirectory) => Raise EOther | Fails (Other e) => Raise e | Fails NoFuel => OutOfFuel end.
Theorem C121_same auth {T V D} (json yaml : T -> res V) (doc : V -> res D) lost v w st :
  let '(st', r) := load_told auth json yaml doc lost v w st in
  load_uri auth (default_loader json yaml doc w) v (Store (ls_docs st) (ls_table st, ls_cache st)) = (Store (ls_docs st') (ls_table st', ls_cache st'), untold r).
Proof.
  unfold load_told, load_uri, default_loader. destruct (key_of auth v) as [k|e|]; [|reflexivity..]. cbn [storage loader_state fst snd]. destruct (dget k (ls_docs st)) as [d|]; [reflexivity|].
  destruct (lru_call _ _ _ _) as [c [name|e|]]; cbn [bind]; [|destruct e; reflexivity|reflexivity]. unfold load_file, read_file. destruct (open_file w name) as [t| | | |]; cbn [bind]; try reflexivity.
  destruct (bind _ doc) as [d|e|]; [reflexivity|destruct e; reflexivity|reflexivity].
Qed.

(** ** What does not hold *)
Definition ex_text : Type := nat.
Definition ex_json (t : ex_text) : res nat := Ok t.
Definition ex_doc (n : nat) : res nat := Ok n.
Notation ex_load := (load_told toy ex_json ex_json ex_doc (u "None")).
(** /s/a.json and the working directory /s *)
Definition ex_s : file ex_text := Dir [(u "a.json", File 7%nat)].
Definition ex_disk : disk ex_text := (ex_s, [Dir [(u "s", ex_s)]]).
Definition empty_store : @lstate nat := LState [] [] [].
(** There is no such file, and the error is a NotADirectoryError *)
Theorem C121_refuted : exists v st', mk_uri toy (u "/s/a.json/b.json") = Ok v /\
  plain_resolve (ls_table empty_store) v = Ok (u "/s/a.json/b.json") /\ (forall t, ~ present ex_disk (u "/s/a.json/b.json") t) /\
  ex_load v ex_disk empty_store = (st', Fails NotADirectory).
Proof.
  eexists. eexists. split; [vm_compute; reflexivity|]. split; [vm_compute; reflexivity|]. split; [|vm_compute; reflexivity].
  intros t P. apply (proj1 (proj2 (open_exact ex_disk (u "/s/a.json/b.json") ltac:(vm_compute; intuition discriminate))) t) in P. vm_compute in P. discriminate.
Qed.
(** The file that the resolvers give is there, and the error says that another is not:
    the one a resolver that has been replaced gave *)
Theorem C121_stale_refuted : exists v st1 st2 r1 e, mk_uri toy (u "http://h/a.json") = Ok v /\
  ex_load v ex_disk (register (u "http") (to (u "old.json")) empty_store) = (st1, r1) /\
  plain_resolve (ls_table (register (u "http") (to (u "a.json")) st1)) v = Ok (u "a.json") /\ present ex_disk (u "a.json") 7%nat /\
  ex_load v ex_disk (register (u "http") (to (u "a.json")) st1) = (st2, NotFound e) /\ le_uri e = v /\
  le_text e = u "Could not load document from given uri `http://h/a.json`. Corresponding file `old.json` does not exists".
Proof.
  eexists. eexists. eexists. eexists. eexists. split; [vm_compute; reflexivity|]. split; [vm_compute; reflexivity|]. split; [vm_compute; reflexivity|].
  split; [apply (proj1 (proj2 (open_exact ex_disk (u "a.json") ltac:(vm_compute; intuition discriminate)))); vm_compute; reflexivity|].
  split; [vm_compute; reflexivity|]. split; vm_compute; reflexivity.
Qed.
(** a document that is found, one that is not (asked for with a query and a fragment),
    a directory, and the file found next to the working directory *)
Example C121_some : exists v1 v2 v3 v4 st1 st2 st3 st4 e,
  mk_uri toy (u "a.json#f") = Ok v1 /\ mk_uri toy (u "file:///s/../b.json?q#f") = Ok v2 /\ mk_uri toy (u "/s/.") = Ok v3 /\ mk_uri toy (u "../s/./a.json") = Ok v4 /\
  own_errors ex_json /\ own_errors ex_doc /\ own_errors (plain_resolve (ls_table empty_store)) /\ (forall name, looked_for empty_store v2 name -> ~ In 0 name) /\
  ex_load v1 ex_disk empty_store = (st1, Loaded 7%nat) /\ ex_load v2 ex_disk st1 = (st2, NotFound e) /\
  le_text e = u "Could not load document from given uri `file:///b.json?q#f`. Corresponding file `/b.json` does not exists" /\
  ex_load v3 ex_disk st2 = (st3, Fails IsADirectory) /\ ex_load v4 ex_disk st3 = (st4, Loaded 7%nat) /\ absent ex_disk (u "/b.json").
Proof.
  do 9 eexists. do 4 (split; [vm_compute; reflexivity|]). split; [intro; discriminate|]. split; [intro; discriminate|].
  split; [intro v; unfold plain_resolve, plain_path; cbn [ls_table empty_store dget]; destruct (_ || _); discriminate|].
  split; [intros name [C|[_ C]]; [discriminate C|vm_compute in C; injection C as <-; vm_compute; intuition discriminate]|].
  do 5 (split; [vm_compute; reflexivity|]). apply (proj1 (open_exact ex_disk (u "/b.json") ltac:(vm_compute; intuition discriminate))). vm_compute. reflexivity.
Qed.
