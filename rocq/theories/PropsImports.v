(** C65: which modules of the package can be imported, and when. *)
From Coq Require Import List String Bool Arith Lia.
From Verif Require Import Imports.
Import ListNotations.
Local Open Scope string_scope.
Local Open Scope list_scope.

(** ** The interpreter: enough recursion budget is enough. *)
Lemma mname_eqb_spec : forall a b, mname_eqb a b = true <-> a = b.
Proof.
  induction a as [|x a IH]; destruct b as [|y b]; simpl; try (split; congruence).
  rewrite andb_true_iff, String.eqb_eq, IH. split; [intros [-> ->]; reflexivity|].
  intros H; injection H as -> ->; split; reflexivity.
Qed.

Section Mono.
Variable table : list pymod.

Definition ldle (f g : sysmods -> mname -> sysmods * iout) : Prop :=
  forall s m, snd (f s m) <> INoFuel -> g s m = f s m.

Ltac keep H f g s m :=
  generalize (H s m); destruct (f s m) as [? []]; simpl; intros Hk Hr;
  try (rewrite Hk by discriminate); try (now elim Hr); auto.

Lemma handle_fromlist_le : forall f g, ldle f g -> forall names s m,
  snd (handle_fromlist f s m names) <> INoFuel ->
  handle_fromlist g s m names = handle_fromlist f s m names.
Proof.
  intros f g H. induction names as [|[a b] names IH]; intros s m; simpl; [reflexivity|].
  destruct (sget m s) as [ns|]; [|reflexivity].
  destruct (has a ns); [apply IH|].
  keep H f g s (m ++ [a]).
  destruct (mname_eqb m0 (m ++ [a])); auto.
Qed.

Lemma exec_body_le : forall f g, ldle f g -> forall body s me,
  snd (exec_body table f s me body) <> INoFuel ->
  exec_body table g s me body = exec_body table f s me body.
Proof.
  intros f g H. induction body as [|[m names|m b|ns] body IH]; intros s me; simpl; [reflexivity| | |apply IH].
  - destruct (inside_package m); [|apply IH].
    keep H f g s m.
    destruct (is_package table m).
    + generalize (handle_fromlist_le f g H names s0 m).
      destruct (handle_fromlist f s0 m names) as [s2 []]; simpl; intros Hh;
        try (rewrite Hh by discriminate); try (now elim Hr); auto.
      destruct (import_from s2 me m names) as [s3 []]; auto.
    + destruct (import_from s0 me m names) as [s3 []]; auto.
  - destruct (inside_package m); [|apply IH]. keep H f g s m.
Qed.

Lemma load_here_le : forall f g, ldle f g -> forall s m p,
  snd (load_here table f s m p) <> INoFuel -> load_here table g s m p = load_here table f s m p.
Proof.
  intros f g H s m p. unfold load_here. destruct (lookup table m) as [q|]; [|reflexivity].
  generalize (exec_body_le f g H (pm_body q) ((m, []) :: s) m).
  destruct (exec_body table f _ _ _) as [s' []]; simpl; intros Hh Hr;
    try (rewrite Hh by discriminate); try (now elim Hr); auto.
Qed.

Lemma find_and_load_le : forall n k, n <= k -> ldle (find_and_load table n) (find_and_load table k).
Proof.
  induction n as [|n IH]; intros k Hnk s m; [simpl; intros Hr; now elim Hr|].
  destruct k as [|k]; [lia|]. assert (Hle : ldle (find_and_load table n) (find_and_load table k)) by (apply IH; lia).
  cbn [find_and_load]. destruct (sget m s); [reflexivity|].
  destruct (removelast m) as [|x l] eqn:El; [apply load_here_le; exact Hle|].
  destruct (sget (x :: l) s); [apply load_here_le; exact Hle|].
  keep Hle (find_and_load table n) (find_and_load table k) s (x :: l).
  destruct (sget m s0); [reflexivity|]. apply load_here_le; auto.
Qed.
End Mono.

(** ** The states sys.modules can be in. *)
Definition all_names : list mname := map pm_name package.

(** A recursion budget no import of the package uses up; see [C65_budget]. *)
Definition budget : nat := 100.

Fixpoint names_eqb (a b : list string) : bool :=
  match a, b with
  | [], [] => true
  | x :: a', y :: b' => String.eqb x y && names_eqb a' b'
  | _, _ => false
  end.

Fixpoint sys_eqb (a b : sysmods) : bool :=
  match a, b with
  | [], [] => true
  | (m, x) :: a', (m', y) :: b' => mname_eqb m m' && names_eqb x y && sys_eqb a' b'
  | _, _ => false
  end.

Definition step (s : sysmods) (m : mname) : sysmods := fst (find_and_load package budget s m).

Fixpoint add_new (l acc : list sysmods) : list sysmods :=
  match l with
  | [] => acc
  | s :: l' => add_new l' (if existsb (sys_eqb s) acc then acc else acc ++ [s])
  end.

Fixpoint closure (n : nat) (acc : list sysmods) : list sysmods :=
  match n with
  | 0 => acc
  | S k => closure k (add_new (flat_map (fun s => map (step s) all_names) acc) acc)
  end.

Definition reach : list sysmods := Eval vm_compute in closure 3 [[]].

(** ** Specification: the modules that can never be imported. *)
Definition within (p m : mname) : bool := mname_eqb p (firstn (List.length p) m).

Definition unimportable (m : mname) : bool :=
  (within ["jsoned"; "keywords"] m || within ["jsoned"; "vocabulary"] m
   || within ["jsoned"; "string_format"] m || within ["jsoned"; "validators"] m)
  && negb (mname_eqb m ["jsoned"; "validators"; "array_validators"]
           || mname_eqb m ["jsoned"; "validators"; "core_validators"]).

Definition no_validator : iout := INoName "Validator" ["jsoned"; "validators"].

Definition is_done (o : iout) : bool := match o with IDone => true | _ => false end.
Definition is_no_validator (o : iout) : bool :=
  match o with
  | INoName n m => String.eqb n "Validator" && mname_eqb m ["jsoned"; "validators"]
  | _ => false
  end.
Definition is_fresh (s : sysmods) : bool := match s with [] => true | _ => false end.

Definition outcome_ok (s : sysmods) (m : mname) (o : iout) : bool :=
  if is_fresh s || unimportable m then is_no_validator o else is_done o.

Definition all_ok : bool :=
  forallb (fun s =>
    forallb (fun m =>
      let (s', o) := find_and_load package budget s m in
      existsb (sys_eqb s') reach && outcome_ok s m o && negb (is_fresh s')) all_names
    && forallb (fun e => existsb (mname_eqb (fst e)) all_names) s) reach.

Lemma all_ok_true : all_ok = true.
Proof. vm_compute. reflexivity. Qed.

Local Opaque reach package budget.

Lemma names_eqb_spec : forall a b, names_eqb a b = true -> a = b.
Proof.
  induction a as [|x a IH]; destruct b as [|y b]; simpl; try congruence.
  intros H; apply andb_prop in H as [H1 H2]. apply String.eqb_eq in H1. f_equal; auto.
Qed.

Lemma sys_eqb_spec : forall a b, sys_eqb a b = true -> a = b.
Proof.
  induction a as [|[m x] a IH]; destruct b as [|[m' y] b]; simpl; try congruence.
  intros H; apply andb_prop in H as [H H3]. apply andb_prop in H as [H1 H2].
  apply mname_eqb_spec in H1. apply names_eqb_spec in H2. f_equal; auto. congruence.
Qed.

Lemma existsb_sys : forall s l, existsb (sys_eqb s) l = true -> In s l.
Proof.
  intros s l H. apply existsb_exists in H as (x & Hx & E). apply sys_eqb_spec in E; congruence.
Qed.

Lemma all_known : forall fuel s m, budget <= fuel -> In s reach -> In m all_names ->
  let r := find_and_load package fuel s m in
  In (fst r) reach /\ outcome_ok s m (snd r) = true /\ fst r <> [].
Proof.
  intros fuel s m Hf Hs Hm. cbv zeta.
  assert (H := all_ok_true). unfold all_ok in H.
  rewrite forallb_forall in H. specialize (H s Hs). apply andb_prop in H as [H _].
  rewrite forallb_forall in H. specialize (H m Hm).
  assert (E : find_and_load package fuel s m = find_and_load package budget s m).
  { apply (find_and_load_le package budget fuel Hf).
    destruct (find_and_load package budget s m) as [s' o]; simpl.
    intros E; rewrite E in H; clear E. unfold outcome_ok in H. destruct (is_fresh s || unimportable m); cbn [is_done is_no_validator] in H;
      rewrite andb_false_r in H; discriminate H. }
  rewrite E. destruct (find_and_load package budget s m) as [s' o]; cbn [fst snd] in *.
  apply andb_prop in H as [H H3]. apply andb_prop in H as [H1 H2].
  split; [apply existsb_sys; exact H1|]. split; [exact H2|].
  intros ->; discriminate.
Qed.

Lemma reach_keys : forall s m ns, In s reach -> sget m s = Some ns -> In m all_names.
Proof.
  intros s m ns Hs Hg. assert (H := all_ok_true). unfold all_ok in H.
  rewrite forallb_forall in H. specialize (H s Hs). apply andb_prop in H as [_ H].
  rewrite forallb_forall in H.
  assert (Hi : exists e, In e s /\ fst e = m).
  { clear -Hg. induction s as [|[k v] s IH]; simpl in Hg; [discriminate|].
    destruct (mname_eqb m k) eqn:E; [apply mname_eqb_spec in E; exists (k, v); split; [left; reflexivity|simpl; congruence]|].
    destruct (IH Hg) as (e & He & Ek). exists e; split; [right; exact He|exact Ek]. }
  destruct Hi as (e & He & <-). specialize (H e He).
  apply existsb_exists in H as (x & Hx & E). apply mname_eqb_spec in E. congruence.
Qed.

Lemma lookup_names : forall m p, lookup package m = Some p -> In m all_names.
Proof.
  intros m p H. unfold lookup in H. apply find_some in H as [Hi E]. apply mname_eqb_spec in E. subst m.
  unfold all_names. apply in_map. exact Hi.
Qed.

Lemma names_lookup : forall m, In m all_names -> lookup package m <> None.
Proof.
  intros m H E. unfold all_names in H. apply in_map_iff in H as (p & <- & Hp).
  unfold lookup in E. apply (find_none _ _ E) in Hp. 
  assert (mname_eqb (pm_name p) (pm_name p) = true) by (apply mname_eqb_spec; reflexivity). congruence.
Qed.

Lemma names_dec : forall m, In m all_names \/ lookup package m = None.
Proof.
  intros m. destruct (lookup package m) eqn:E; [left; eapply lookup_names; exact E|right; reflexivity].
Qed.

Lemma reach_top : In ["jsoned"] all_names.
Proof.
  apply (lookup_names _ m_jsoned). vm_compute. reflexivity.
Qed.

Lemma is_done_spec : forall o, is_done o = true -> o = IDone.
Proof. intros [] H; try discriminate H; reflexivity. Qed.

Lemma is_no_validator_spec : forall o, is_no_validator o = true -> o = no_validator.
Proof.
  intros [| |n m|] H; simpl in H; try discriminate. apply andb_prop in H as [H1 H2].
  apply String.eqb_eq in H1. apply mname_eqb_spec in H2. subst. reflexivity.
Qed.

Lemma load_any : forall m fuel s, inside_package m = true ->
  budget + List.length m <= fuel -> In s reach ->
  let r := find_and_load package fuel s m in
  In (fst r) reach /\ fst r <> [] /\ (s = [] -> snd r = no_validator)
  /\ (In m all_names -> outcome_ok s m (snd r) = true) /\ (lookup package m = None -> snd r <> IDone).
Proof.
  induction m as [|x l IH] using rev_ind; intros fuel s Hp Hf Hs; cbv zeta.
  { discriminate. }
  destruct (names_dec (l ++ [x])) as [Hn|Hn].
  { destruct (all_known fuel s (l ++ [x])) as (H1 & H2 & H3); [lia|exact Hs|exact Hn|].
    split; [exact H1|]. split; [exact H3|]. split.
    - intros ->. apply is_no_validator_spec. exact H2.
    - split; [intros _; exact H2|]. intros E. exfalso. revert E. apply names_lookup. exact Hn. }
  assert (Hsn : forall s', In s' reach -> sget (l ++ [x]) s' = None).
  { intros s' Hs'. destruct (sget (l ++ [x]) s') eqn:E; [|reflexivity].
    exfalso. apply (reach_keys _ _ _ Hs') in E. revert Hn. apply names_lookup. exact E. }
  assert (Hl : l <> []).
  { intros ->. cbn in Hp. apply String.eqb_eq in Hp. subst x. revert Hn. apply names_lookup. exact reach_top. }
  rewrite app_length in Hf. cbn [List.length] in Hf. destruct fuel as [|k]; [lia|].
  cbn [find_and_load]. rewrite (Hsn s Hs), removelast_last.
  destruct l as [|y l]; [congruence|]. set (parent := y :: l) in *.
  assert (Hpp : inside_package parent = true) by exact Hp.
  assert (Hlh : forall s', load_here package (find_and_load package k) s' (parent ++ [x]) parent = (s', INoModule (parent ++ [x]))).
  { intros s'. unfold load_here. rewrite Hn. reflexivity. }
  assert (Hnn : In (parent ++ [x]) all_names -> False).
  { intros Hi. apply names_lookup in Hi. congruence. }
  destruct (sget parent s) eqn:Ep.
  { rewrite Hlh. cbn [fst snd]. split; [exact Hs|]. split; [intros ->; discriminate|].
    split; [intros ->; discriminate|]. split; [intros Hi; now elim Hnn|]. discriminate. }
  destruct (IH k s Hpp ltac:(lia) Hs) as (H1 & H2 & H3 & _).
  destruct (find_and_load package k s parent) as [s' []]; cbn [fst snd] in *;
    try (split; [exact H1|]; split; [exact H2|]; split; [exact H3|]; split; [intros Hi; now elim Hnn|]; discriminate).
  rewrite (Hsn s' H1), Hlh. cbn [fst snd]. split; [exact H1|]. split; [exact H2|].
  split; [intros E; specialize (H3 E); discriminate|]. split; [intros Hi; now elim Hnn|]. discriminate.
Qed.

(** ** Histories of requests. *)
Definition about_package (r : request) : Prop := inside_package (request_module r) = true.

(** The longest module name a request can lead to. *)
Definition request_size (r : request) : nat := S (List.length (request_module r)).

Definition roomy (fuel : nat) (r : request) : Prop := budget + request_size r <= fuel.

Lemma inside_snoc : forall m a, inside_package m = true -> inside_package (m ++ [a]) = true.
Proof. intros [|x m] a H; [discriminate|exact H]. Qed.

Lemma handle_reach : forall fuel names m s, inside_package m = true ->
  budget + S (List.length m) <= fuel -> In s reach -> s <> [] ->
  let r := handle_fromlist (find_and_load package fuel) s m names in
  In (fst r) reach /\ fst r <> [].
Proof.
  intros fuel names m s Hp Hf. revert s. induction names as [|[a b] names IH]; intros s Hs Hne; cbv zeta.
  { split; assumption. }
  cbn [handle_fromlist]. destruct (sget m s); [|split; assumption].
  destruct (has a l); [apply IH; assumption|].
  destruct (load_any (m ++ [a]) fuel s) as (H1 & H2 & _).
  { apply inside_snoc; exact Hp. } { rewrite app_length; cbn [List.length]; lia. } { exact Hs. }
  destruct (find_and_load package fuel s (m ++ [a])) as [s' []]; cbn [fst snd] in *;
    try (split; assumption); try (apply IH; assumption).
  destruct (mname_eqb m0 (m ++ [a])); [apply IH; assumption|split; assumption].
Qed.

Lemma nil_not_name : ~ In [] all_names.
Proof. intros H. apply names_lookup in H. vm_compute in H. congruence. Qed.

Lemma sbind_nil : forall s n, In s reach -> sbind [] n s = s.
Proof.
  intros s n Hs. assert (H : forall e, In e s -> In (fst e) all_names).
  { assert (H := all_ok_true). unfold all_ok in H.
    rewrite forallb_forall in H. specialize (H s Hs). apply andb_prop in H as [_ H].
    rewrite forallb_forall in H. intros e He. specialize (H e He).
    apply existsb_exists in H as (x & Hx & E). apply mname_eqb_spec in E. congruence. }
  unfold sbind. clear Hs. induction s as [|[k v] s IH]; [reflexivity|]. cbn [map fst snd].
  rewrite IH by (intros e He; apply H; right; exact He).
  destruct (mname_eqb [] k) eqn:E; [|reflexivity].
  apply mname_eqb_spec in E. subst k. exfalso. apply nil_not_name. apply (H ([], v)). left; reflexivity.
Qed.

Lemma import_from_user : forall names m s, In s reach -> fst (import_from s [] m names) = s.
Proof.
  induction names as [|[a b] names IH]; intros m s Hs; cbn [import_from]; [reflexivity|].
  destruct (sget m s); [|reflexivity]. rewrite (sbind_nil s b Hs).
  destruct (has a l); [apply IH; exact Hs|]. destruct (sget (m ++ [a]) s); [apply IH; exact Hs|reflexivity].
Qed.

Lemma run_reach : forall fuel r s, about_package r -> roomy fuel r -> In s reach ->
  In (fst (run_request package fuel s r)) reach /\ fst (run_request package fuel s r) <> [].
Proof.
  intros fuel r s Ha Hf Hs. unfold roomy, request_size in Hf.
  destruct (load_any (request_module r) fuel s Ha ltac:(lia) Hs) as (H1 & H2 & _).
  destruct r as [m|m names]; cbn [run_request request_module] in *.
  - destruct (find_and_load package fuel s m) as [s' []]; cbn [fst snd] in *; try (split; assumption).
    unfold about_package in Ha. cbn [request_module] in Ha.
    destruct m as [|x m]; [discriminate|]. cbn [firstn].
    destruct (load_any [x] fuel s') as (H3 & H4 & _); [exact Ha|cbn [List.length] in *; lia|exact H1|].
    split; assumption.
  - destruct (find_and_load package fuel s m) as [s' []]; cbn [fst snd] in *; try (split; assumption).
    destruct (is_package package m).
    + destruct (handle_reach fuel (map (fun a => (a, a)) names) m s' Ha Hf H1 H2) as [H3 H4].
      destruct (handle_fromlist (find_and_load package fuel) s' m (map (fun a => (a, a)) names)) as [s2 []];
        cbn [fst snd] in *; try (split; assumption).
      rewrite import_from_user by exact H3. split; assumption.
    + rewrite import_from_user by exact H1. split; assumption.
Qed.

(** sys.modules after a history of requests, in a fresh interpreter. *)
Definition after (fuel : nat) (h : list request) : sysmods :=
  fold_left (fun s r => fst (run_request package fuel s r)) h [].

Definition history (fuel : nat) (h : list request) : Prop :=
  Forall about_package h /\ Forall (roomy fuel) h.

Lemma reach_start : In [] reach.
Proof. apply existsb_sys. vm_compute. reflexivity. Qed.

Lemma after_reach : forall fuel h, history fuel h ->
  In (after fuel h) reach /\ (h <> [] -> after fuel h <> []).
Proof.
  intros fuel h [Ha Hr]. unfold after.
  induction h as [|r h IH] using rev_ind.
  { split; [exact reach_start|congruence]. }
  apply Forall_app in Ha as [Ha1 Ha2]. apply Forall_app in Hr as [Hr1 Hr2].
  apply Forall_inv in Ha2. apply Forall_inv in Hr2.
  destruct (IH Ha1 Hr1) as [H3 _]. rewrite fold_left_app. cbn [fold_left].
  destruct (run_reach fuel r _ Ha2 Hr2 H3) as [H5 H6]. split; [exact H5|intros _; exact H6].
Qed.

(** ** C65, user expectation: the first import of any module succeeds.  It never
    does: whatever is asked of the package first ends with
    "cannot import name 'Validator' from 'jsoned.validators'". *)
Theorem C65_first : forall fuel r, about_package r -> roomy fuel r ->
  snd (run_request package fuel [] r) = no_validator.
Proof.
  intros fuel r Ha Hf. unfold roomy, request_size in Hf.
  destruct (load_any (request_module r) fuel [] Ha ltac:(lia) reach_start) as (_ & _ & H & _).
  specialize (H eq_refl).
  destruct r as [m|m names]; cbn [run_request request_module] in *;
    destruct (find_and_load package fuel [] m) as [s' o]; cbn [fst snd] in *; subst o; reflexivity.
Qed.

Lemma run_request_le : forall table n k s m, n <= k ->
  snd (run_request table n s (ImportModule m)) <> INoFuel ->
  run_request table k s (ImportModule m) = run_request table n s (ImportModule m).
Proof.
  intros table n k s m Hn. assert (Hle := find_and_load_le table n k Hn). cbn [run_request].
  generalize (Hle s m). destruct (find_and_load table n s m) as [s1 []]; cbn [snd]; intros H1 H2;
    try (rewrite H1 by discriminate; reflexivity).
  - rewrite H1 by discriminate. apply Hle. exact H2.
  - now elim H2.
Qed.

Theorem C65_refuted :
  ~ (forall m, In m all_names -> exists fuel, snd (run_request package fuel [] (ImportModule m)) = IDone).
Proof.
  intros H. destruct (H ["jsoned"] reach_top) as [fuel E]. clear H.
  assert (F := C65_first (budget + fuel + 2) (ImportModule ["jsoned"]) eq_refl ltac:(unfold roomy, request_size; cbn [request_module List.length]; lia)).
  rewrite (run_request_le package fuel) in F; [|lia|rewrite E; intros X; discriminate X].
  rewrite E in F. discriminate F.
Qed.

(** After any non-empty history of failed or successful requests, importing a
    module succeeds exactly when it is not one of the unimportable ones. *)
Theorem C65_later : forall fuel h m, history fuel h -> h <> [] -> In m all_names ->
  roomy fuel (ImportModule m) -> inside_package m = true ->
  (snd (run_request package fuel (after fuel h) (ImportModule m)) = IDone <-> unimportable m = false).
Proof.
  intros fuel h m Hh Hne Hm Hf Hp. unfold roomy, request_size in Hf. cbn [request_module] in Hf.
  destruct (after_reach fuel h Hh) as [Hs Hs0]. specialize (Hs0 Hne).
  destruct (load_any m fuel _ Hp ltac:(lia) Hs) as (H1 & H2 & _ & H4 & _).
  specialize (H4 Hm). unfold outcome_ok in H4.
  assert (Ef : is_fresh (after fuel h) = false) by (destruct (after fuel h); [congruence|reflexivity]).
  rewrite Ef in H4. cbn [orb] in H4. cbn [run_request].
  destruct (unimportable m) eqn:Eu.
  - apply is_no_validator_spec in H4.
    destruct (find_and_load package fuel (after fuel h) m) as [s' o]; cbn [fst snd] in *. subst o.
    split; discriminate.
  - destruct (find_and_load package fuel (after fuel h) m) as [s' o]; cbn [fst snd] in *.
    destruct o; try discriminate. split; [reflexivity|intros _].
    destruct m as [|x m]; [discriminate|]. cbn in Hp. apply String.eqb_eq in Hp. subst x. cbn [firstn].
    destruct (load_any ["jsoned"] fuel s' eq_refl ltac:(cbn [List.length] in *; lia) H1) as (_ & _ & _ & H5 & _).
    specialize (H5 reach_top). unfold outcome_ok in H5.
    assert (Ef' : is_fresh s' = false) by (destruct s'; [congruence|reflexivity]). rewrite Ef' in H5.
    destruct (snd (find_and_load package fuel s' ["jsoned"])); try discriminate. reflexivity.
Qed.

(** The validators and the keywords can never be imported, in no history: not
    as modules, and no name can be taken from them. *)
Theorem C65_never : forall fuel h r, history fuel h -> about_package r -> roomy fuel r ->
  In (request_module r) all_names -> unimportable (request_module r) = true ->
  snd (run_request package fuel (after fuel h) r) = no_validator.
Proof.
  intros fuel h r Hh Ha Hf Hm Hu. unfold roomy, request_size in Hf.
  destruct (after_reach fuel h Hh) as [Hs _].
  destruct (load_any (request_module r) fuel _ Ha ltac:(lia) Hs) as (_ & _ & _ & H4 & _).
  specialize (H4 Hm). unfold outcome_ok in H4. rewrite Hu, orb_true_r in H4.
  apply is_no_validator_spec in H4.
  destruct r as [m|m names]; cbn [run_request request_module] in *;
    destruct (find_and_load package fuel (after fuel h) m) as [s' o]; cbn [fst snd] in *; subst o; reflexivity.
Qed.

(** The budget is no restriction: an import that ends within some budget ends
    the same way within every larger one. *)
Theorem C65_budget : forall table n k s m, n <= k ->
  snd (find_and_load table n s m) <> INoFuel ->
  find_and_load table k s m = find_and_load table n s m.
Proof. intros. apply find_and_load_le; assumption. Qed.

(** ** The one statement at fault.  With
    "from jsoned.validators.core_validators import Validator" as line 2 of
    composition_validators.py, every module can be imported first. *)
Definition repair (p : pymod) : pymod :=
  if mname_eqb (pm_name p) ["jsoned"; "validators"; "composition_validators"] then
    PyMod (pm_name p) (pm_package p)
      (map (fun st => match st with
                      | IFrom ["jsoned"; "validators"] ns =>
                          IFrom ["jsoned"; "validators"; "core_validators"] ns
                      | _ => st
                      end) (pm_body p))
  else p.

Theorem C65_repaired : forall fuel m, budget <= fuel -> In m all_names ->
  snd (find_and_load (map repair package) fuel [] m) = IDone.
Proof.
  assert (H : forallb (fun m => is_done (snd (find_and_load (map repair package) budget [] m))) all_names = true)
    by (vm_compute; reflexivity).
  intros fuel m Hf Hm. rewrite forallb_forall in H. specialize (H m Hm).
  apply is_done_spec in H.
  rewrite (C65_budget _ budget fuel); [exact H|exact Hf|].
  rewrite H. intros X; discriminate X.
Qed.

(** ** Cases. *)
Example C65_some : exists h, history 200 h /\ h <> []
  /\ snd (run_request package 200 (after 200 h) (ImportModule ["jsoned"])) = IDone
  /\ snd (run_request package 200 (after 200 h) (FromModule ["jsoned"; "json_core"] ["JsonSchema"])) = IDone
  /\ snd (run_request package 200 (after 200 h) (FromModule ["jsoned"; "keywords"] ["TypeKeyword"])) = no_validator
  /\ unimportable ["jsoned"; "keywords"] = true /\ unimportable ["jsoned"] = false.
Proof.
  exists [FromModule ["jsoned"; "keywords"] ["TypeKeyword"]].
  assert (Hh : history 200 [FromModule ["jsoned"; "keywords"] ["TypeKeyword"]]).
  { split; apply Forall_cons; try apply Forall_nil; [reflexivity|].
    apply Nat.leb_le; vm_compute; reflexivity. }
  assert (Hr : (is_done (snd (run_request package 200 (after 200 [FromModule ["jsoned"; "keywords"] ["TypeKeyword"]]) (ImportModule ["jsoned"])))
    && is_done (snd (run_request package 200 (after 200 [FromModule ["jsoned"; "keywords"] ["TypeKeyword"]]) (FromModule ["jsoned"; "json_core"] ["JsonSchema"])))
    && is_no_validator (snd (run_request package 200 (after 200 [FromModule ["jsoned"; "keywords"] ["TypeKeyword"]]) (FromModule ["jsoned"; "keywords"] ["TypeKeyword"]))))
    = true) by (vm_compute; reflexivity).
  apply andb_prop in Hr as [Hr H3]. apply andb_prop in Hr as [H1 H2].
  apply is_no_validator_spec in H3.
  refine (conj Hh (conj _ (conj (is_done_spec _ H1) (conj (is_done_spec _ H2) (conj H3 (conj eq_refl eq_refl)))))).
  intros X; discriminate X.
Qed.

(** ** C68, user expectation: whether an import succeeds does not depend on the
    imports attempted before.  It does: a module that failed can be imported the
    second time. *)
Theorem C68_refuted :
  ~ (forall fuel h m, history fuel h -> In m all_names -> inside_package m = true ->
       roomy fuel (ImportModule m) ->
       (snd (run_request package fuel (after fuel h) (ImportModule m)) = IDone
        <-> snd (run_request package fuel [] (ImportModule m)) = IDone)).
Proof.
  intros H. set (first := [ImportModule ["jsoned"]]).
  assert (Hr : roomy (budget + 2) (ImportModule ["jsoned"]))
    by (unfold roomy, request_size; cbn [request_module List.length]; lia).
  assert (Hh : history (budget + 2) first) by (split; apply Forall_cons; try apply Forall_nil; [reflexivity|exact Hr]).
  assert (Ha := proj2 (C65_later _ _ ["jsoned"] Hh ltac:(discriminate) reach_top Hr eq_refl) eq_refl).
  apply (H _ _ _ Hh reach_top eq_refl Hr) in Ha.
  rewrite (C65_first _ (ImportModule ["jsoned"]) eq_refl Hr) in Ha. discriminate Ha.
Qed.

(** What is left of it: a history of at least one attempt settles the matter;
    any two such histories give every module the same outcome. *)
Theorem C68_partial : forall fuel h h' m, history fuel h -> history fuel h' -> h <> [] -> h' <> [] ->
  In m all_names -> inside_package m = true -> roomy fuel (ImportModule m) ->
  (snd (run_request package fuel (after fuel h) (ImportModule m)) = IDone
   <-> snd (run_request package fuel (after fuel h') (ImportModule m)) = IDone).
Proof.
  intros fuel h h' m Hh Hh' Hn Hn' Hm Hp Hr.
  rewrite (C65_later fuel h m Hh Hn Hm Hr Hp), (C65_later fuel h' m Hh' Hn' Hm Hr Hp). reflexivity.
Qed.
