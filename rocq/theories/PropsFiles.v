(** C67: which parser reads a file; examples for C51, C52, C57, C58, C67. *)
From Verif Require Import PyBase PyBaseFacts LeafFacts Regex Uri UriSpec UriNorm PropsUri PropsPointer PropsResolve PropsUriText PropsUriEx Store PropsStore PropsLoader.
Local Open Scope N_scope.
Local Notation length := List.length (only parsing).

(** [name] is a path whose last component is [base.ext], with something other
    than dots before the last dot *)
Definition has_extension (ext name : pystr) : Prop :=
  exists dir base, name = dir ++ base ++ 46 :: ext /\ (dir = [] \/ exists d, dir = d ++ [47]) /\
    ~ In 47 base /\ ~ In 47 ext /\ ~ In 46 ext /\ exists c, In c base /\ c <> 46.

Lemma upto_last_none c s : upto_last c s = None <-> ~ In c s.
Proof.
  induction s as [|x s IH]; [cbn; tauto|]. cbn. destruct (upto_last c s) as [w|]; [split; [discriminate|]|].
  - intro H. exfalso. destruct IH as [_ IH]. assert (~ In c s) by tauto. specialize (IH H0). discriminate.
  - destruct (N.eqb_spec x c) as [->|Hn]; [split; [discriminate|intro H; exfalso; apply H; left; reflexivity]|]. split; [|reflexivity].
    intros _ [->|H]; [congruence|]. apply IH in H; [exact H|reflexivity].
Qed.
Lemma last_part s : exists dir, s = dir ++ after_last slash s /\ (dir = [] \/ exists d, dir = d ++ [47]) /\ ~ In 47 (after_last slash s).
Proof.
  unfold after_last. destruct (upto_last slash s) as [w|] eqn:E.
  - apply upto_last_some in E as (t & -> & Ht). exists (w ++ [47]). rewrite skipn_app, skipn_all2 by lia.
    replace (S (length w) - length w)%nat with 1%nat by lia. cbn. rewrite <- app_assoc. split; [reflexivity|]. split; [eauto|exact Ht].
  - apply upto_last_none in E. exists []. auto.
Qed.
Lemma dots_forall w : forallb (N.eqb 46) w = false <-> exists c, In c w /\ c <> 46.
Proof.
  induction w as [|x w IH]; [cbn; split; [discriminate|intros (c & [] & _)]|]. cbn [forallb In]. destruct (N.eqb_spec 46 x) as [<-|Hn]; cbn [andb].
  - rewrite IH. split; intros (c & Hc & Hn); exists c; [auto|]. destruct Hc; [congruence|auto].
  - split; [intros _; exists x; auto|reflexivity].
Qed.
Lemma slash_cut d1 d2 (b1 b2 : pystr) : ~ In 47 b1 -> ~ In 47 b2 -> (d1 = [] \/ exists d, d1 = d ++ [47]) -> (d2 = [] \/ exists d, d2 = d ++ [47]) -> d1 ++ b1 = d2 ++ b2 -> b1 = b2.
Proof.
  intros H1 H2 D1 D2 E. apply app_split in E as [(l & E1 & E2)|(l & E1 & E2)].
  - destruct l as [|x l]; [cbn in E2; congruence|]. exfalso. apply H2. rewrite E2. apply in_or_app. left.
    destruct D1 as [->|[d ->]]; [destruct d2; discriminate|]. assert (K : exists l', x :: l = l' ++ [47]).
    { destruct (@exists_last _ (x :: l) ltac:(discriminate)) as (l' & y & E3). rewrite E3 in *. rewrite app_assoc in E1. apply app_inj_tail in E1 as [_ <-]. eauto. }
    destruct K as [l' ->]. apply in_or_app. right; left; reflexivity.
  - destruct l as [|x l]; [cbn in E2; congruence|]. exfalso. apply H1. rewrite E2. apply in_or_app. left.
    destruct D2 as [->|[d ->]]; [destruct d1; discriminate|]. assert (K : exists l', x :: l = l' ++ [47]).
    { destruct (@exists_last _ (x :: l) ltac:(discriminate)) as (l' & y & E3). rewrite E3 in *. rewrite app_assoc in E1. apply app_inj_tail in E1 as [_ <-]. eauto. }
    destruct K as [l' ->]. apply in_or_app. right; left; reflexivity.
Qed.
Lemma extension_iff ext name : extension name = 46 :: ext <-> has_extension ext name.
Proof.
  destruct (last_part name) as (dir & En & Hd & Hb). unfold extension. set (b := after_last slash name) in *. clearbody b. split.
  - destruct (upto_last 46 b) as [w|] eqn:E; [|discriminate]. destruct (forallb (N.eqb 46) w) eqn:F; [discriminate|].
    apply upto_last_some in E as (t & -> & Ht). apply dots_forall in F. rewrite skipn_app, skipn_all, Nat.sub_diag. cbn. intros [= ->].
    exists dir, w. split; [exact En|]. split; [exact Hd|]. split; [intro; apply Hb, in_or_app; auto|]. split; [intro; apply Hb, in_or_app; right; right; assumption|]. auto.
  - intros (d & base & En2 & Hd2 & H1 & H2 & H3 & H4). assert (b = base ++ 46 :: ext) as ->.
    { apply (slash_cut dir d); auto; [|congruence]. intro K. apply in_app_or in K as [K|[K|K]]; [tauto|discriminate|tauto]. }
    rewrite upto_last_app by exact H3. apply dots_forall in H4. rewrite H4. rewrite skipn_app, skipn_all, Nat.sub_diag. reflexivity.
Qed.

Section Files.
  Context {T V D : Type} (read : pystr -> res T) (json yaml : T -> res V) (doc : V -> res D).
  Theorem C67_parser name t : read name = Ok t ->
    (has_extension (u "json") name -> load_file read json yaml doc name = bind (json t) doc) /\
    (has_extension (u "yaml") name \/ has_extension (u "yml") name -> load_file read json yaml doc name = bind (yaml t) doc) /\
    (~ has_extension (u "json") name -> ~ has_extension (u "yaml") name -> ~ has_extension (u "yml") name -> load_file read json yaml doc name = Raise EValue).
  Proof.
    intro Hr. unfold load_file. rewrite Hr. cbn [bind]. rewrite <- !extension_iff. split; [|split].
    - intros ->. reflexivity.
    - intros [->| ->]; reflexivity.
    - intros H1 H2 H3. destruct (str_eqb (extension name) (u ".yaml")) eqn:E1; [apply str_eqb_eq in E1; contradiction|].
      destruct (str_eqb (extension name) (u ".yml")) eqn:E2; [apply str_eqb_eq in E2; contradiction|].
      destruct (str_eqb (extension name) (u ".json")) eqn:E3; [apply str_eqb_eq in E3; contradiction|]. reflexivity.
  Qed.
  (** a file that cannot be read fails with the reason, whatever it is called *)
  Theorem C67_unreadable name e : read name = Raise e -> load_file read json yaml doc name = Raise e.
  Proof. intro H. unfold load_file. rewrite H. reflexivity. Qed.
End Files.
Example C67_some : has_extension (u "json") (u "/a.b/c.d.json") /\ ~ has_extension (u "json") (u "/a/.json") /\ ~ has_extension (u "json") (u "a.json/b").
Proof. rewrite <- !extension_iff. vm_compute. repeat split; discriminate. Qed.

(** ** C51, C52 on an example *)
Definition ex_uri (s : pystr) : uri := match mk_uri toy s with Ok v => v | _ => Uri [] (Auth [] [] []) [] [] [] end.
Lemma ex_made s v : mk_uri toy s = Ok v -> made toy (ex_uri s).
Proof. intro H. unfold ex_uri. rewrite H. exact (made_text toy s v H). Qed.
(** a loader that knows one file and counts its calls *)
Definition ex_loader (v : uri) (n : nat) : nat * res nat := (S n, if str_eqb (u_path v) (u "/a.json") then Ok 7%nat else Raise EFileNotFound).
Example C51_some :
  let ops := [Add (ex_uri (u "http://h/x#f")) 3%nat; Load (ex_uri (u "/a.json?q")); Load (ex_uri (u "/b.json")); Load (ex_uri (u "/a.json#z")); Add (ex_uri (u "rel")) 5%nat] in
  Forall (op_uri toy) ops /\
  exists log st, history toy ex_loader ops (Store [] 0%nat) = (log, st) /\ loader_state st = 2%nat /\
    map snd log = [Done (Ok tt); Doc (Ok 7%nat); Doc (Raise ELoad); Doc (Ok 7%nat); Done (Raise EValue)] /\
    get toy (ex_uri (u "http://h/x?y")) st = Ok 3%nat /\ get_str (u "http://h/x") st = Ok 3%nat /\ contains toy (ex_uri (u "rel")) st = Ok false.
Proof.
  split; [repeat (constructor; [eapply ex_made; vm_compute; reflexivity|]); constructor|].
  eexists. eexists. split; [vm_compute; reflexivity|]. do 4 (split; [vm_compute; reflexivity|]). vm_compute; reflexivity.
Qed.

(** ** C57 *)
Lemma ex_maps text m dir rest : text = m ++ rest -> maps_to [(m, dir)] text m dir rest.
Proof. intro E. split; [exact E|]. exists [], []. split; [reflexivity|]. intros ? ? []. Qed.
Example C57_some : exists v p, made toy v /\ maps_to [(u "https://test.com/schemes/", u "/d")] (base_key v) (u "https://test.com/schemes/") (u "/d") (u "a/b.json") /\
  map_resolve toy [(u "https://test.com/schemes/", u "/d")] v = Ok p /\ p = u "/d/a/b.json" /\ stays_under (u "/d") p.
Proof.
  exists (ex_uri (u "https://test.com/schemes/x/../a/b.json")), (u "/d/a/b.json"). split; [eapply ex_made; vm_compute; reflexivity|].
  split; [apply ex_maps; vm_compute; reflexivity|]. split; [vm_compute; reflexivity|]. split; [reflexivity|].
  exists (u "/a/b.json"). split; [reflexivity|]. split; [right; right; eexists; reflexivity|]. vm_compute. intuition discriminate.
Qed.
Lemma escapes dir p tail : p = dir ++ tail -> In (u "..") (segments tail) -> ~ stays_under dir p.
Proof. intros -> Hin (t & E & _ & Hn). apply app_inv_head in E as <-. exact (Hn Hin). Qed.
(** a mapping that does not end at a slash *)
Theorem C57_refuted : exists v p, mk_uri toy (u "http://h/a../x") = Ok v /\ map_resolve toy [(u "http://h/a", u "/d")] v = Ok p /\ p = u "/d/../x" /\ ~ stays_under (u "/d") p.
Proof.
  eexists. exists (u "/d/../x"). split; [vm_compute; reflexivity|]. split; [vm_compute; reflexivity|]. split; [reflexivity|].
  apply (escapes _ _ (u "/../x")); [reflexivity|vm_compute; tauto].
Qed.
(** a mapping of a whole scheme and a host named [..] *)
Theorem C57_host_refuted : exists v p, mk_uri toy (u "http://../x") = Ok v /\ map_resolve toy [(u "http://", u "/d")] v = Ok p /\ p = u "/d/../x" /\ ~ stays_under (u "/d") p.
Proof.
  eexists. exists (u "/d/../x"). split; [vm_compute; reflexivity|]. split; [vm_compute; reflexivity|]. split; [reflexivity|].
  apply (escapes _ _ (u "/../x")); [reflexivity|vm_compute; tauto].
Qed.
(** a URI without scheme *)
Theorem C57_relative_refuted : exists v p, mk_uri toy (u "/s/../x") = Ok v /\ map_resolve toy [(u "/s/", u "/d")] v = Ok p /\ p = u "/d/../x" /\ ~ stays_under (u "/d") p.
Proof.
  eexists. exists (u "/d/../x"). split; [vm_compute; reflexivity|]. split; [vm_compute; reflexivity|]. split; [reflexivity|].
  apply (escapes _ _ (u "/../x")); [reflexivity|vm_compute; tauto].
Qed.

(** ** C58 *)
Definition to (s : pystr) : resolver := fun _ => Ok s.
Theorem C58_refuted : exists log w c, let v := ex_uri (u "http://h/a") in
  trace [Register 0 (u "http") (to (u "old")); Resolve 0 v; Register 0 (u "http") (to (u "new")); Resolve 0 v] no_loaders [] = (log, w, c) /\
  map e_answer log = [Ok (u "old"); Ok (u "old")] /\ answer_now w (0%nat, v) = Ok (u "new").
Proof. eexists. eexists. eexists. split; [vm_compute; reflexivity|]. split; vm_compute; reflexivity. Qed.
(** failures are not remembered, other loaders and other URIs are not affected *)
Example C58_some : exists log w c,
  trace [Resolve 0 (ex_uri (u "http://h/a")); Register 0 (u "http") (to (u "x")); Resolve 0 (ex_uri (u "http://h/a")); Resolve 1 (ex_uri (u "http://h/a")); Resolve 0 (ex_uri (u "b"))] no_loaders [] = (log, w, c) /\
  map e_answer log = [Raise EValue; Ok (u "x"); Raise EValue; Ok (u "b")].
Proof. eexists. eexists. eexists. split; [vm_compute; reflexivity|]. vm_compute; reflexivity. Qed.
