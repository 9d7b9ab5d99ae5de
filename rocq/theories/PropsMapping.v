(** C122: which mapping of a MappableUriResolver is used. *)
From Verif Require Import PyBase PyBaseFacts LeafFacts Regex Uri UriSpec UriNorm PropsUri PropsPointer PropsResolve PropsUriText PropsUriEx Store PropsStore PropsLoader PropsFiles.
Local Open Scope N_scope.
Local Notation length := List.length (only parsing).

(** calls of [MappableUriResolver.map], [uri_resolver.py:23-24], on a new resolver *)
Definition mapped (calls : list (pystr * pystr)) : list (pystr * pystr) := fold_left (fun t kp => dset (fst kp) (snd kp) t) calls [].

(** ** The specification *)
Definition covers (m s : pystr) : Prop := exists rest, s = m ++ rest.
(** the target of [m]: that of the last call with [m] *)
Definition latest (calls : list (pystr * pystr)) (m p : pystr) : Prop := exists a b, calls = a ++ (m, p) :: b /\ forall q, ~ In (m, q) b.
(** [m] covers the URI, and no mapping was made before it that does *)
Definition earliest (calls : list (pystr * pystr)) (s m : pystr) : Prop :=
  covers m s /\ exists a p b, calls = a ++ (m, p) :: b /\ forall m' q, In (m', q) a -> ~ covers m' s.

(** ** The table *)
Lemma dset_In {A} (k : pystr) (x : A) d k' y : In (k', y) (dset k x d) -> k' = k \/ In (k', y) d.
Proof.
  induction d as [|[k1 y1] d IH]; cbn [dset]; [intros [[= -> ->]|[]]; auto|]. destruct (str_eqb k k1) eqn:E.
  - apply str_eqb_eq in E as ->. intros [[= -> ->]|H]; [auto|right; right; exact H].
  - intros [H|H]; [right; left; exact H|destruct (IH H); [auto|right; right; assumption]].
Qed.
Lemma mapped_In calls m p : In (m, p) (mapped calls) -> exists q, In (m, q) calls.
Proof.
  unfold mapped. induction calls as [|[k x] calls IH] using rev_ind; [intros []|]. rewrite fold_left_app. cbn [fold_left fst snd]. intro H. apply dset_In in H as [->|H].
  - exists x. apply in_or_app. right; left; reflexivity.
  - destruct (IH H) as [q Hq]. exists q. apply in_or_app. auto.
Qed.
Section Table.
  Variables s m : pystr.
  Hypothesis Cm : covers m s.
  Definition first_is (t : list (pystr * pystr)) (p : pystr) : Prop := exists l1 l2, t = l1 ++ (m, p) :: l2 /\ forall m' d, In (m', d) l1 -> ~ covers m' s.
  Lemma first_set t p k q : first_is t p -> first_is (dset k q t) (if str_eqb k m then q else p).
  Proof.
    intros (l1 & l2 & -> & N). induction l1 as [|[k1 d1] l1 IH]; cbn [app dset].
    - destruct (str_eqb k m) eqn:E; [apply str_eqb_eq in E as ->; exists [], l2|exists [], (dset k q l2)]; split; [reflexivity|intros ? ? []| reflexivity|intros ? ? []].
    - destruct (str_eqb k k1) eqn:E.
      + apply str_eqb_eq in E as ->. assert (E' : str_eqb k1 m = false) by (destruct (str_eqb k1 m) eqn:E; [apply str_eqb_eq in E as ->; exfalso; exact (N m d1 (or_introl eq_refl) Cm)|reflexivity]). rewrite E'.
        exists ((k1, q) :: l1), l2. split; [reflexivity|]. intros m' d [[= <- <-]|H]; [exact (N k1 d1 (or_introl eq_refl))|exact (N m' d (or_intror H))].
      + destruct IH as (a & b & -> & N'); [intros m' d H; exact (N m' d (or_intror H))|]. exists ((k1, d1) :: a), b. split; [reflexivity|]. intros m' d [H|H]; [exact (N m' d (or_introl H))|exact (N' m' d H)].
  Qed.
  Lemma first_mapped calls p : earliest calls s m -> latest calls m p -> first_is (mapped calls) p.
  Proof.
    intros (_ & a & p0 & b & E & N). subst calls. revert p. induction b as [|[k q] b IH] using rev_ind; intros p (a' & b' & E & L).
    - destruct b' as [|x b' _] using rev_ind.
      + apply app_inj_tail in E as [-> [= ->]]. unfold mapped. rewrite fold_left_app. cbn [fold_left fst snd]. fold (mapped a').
        assert (G : dget m (mapped a') = None). { destruct (dget m (mapped a')) as [x|] eqn:G; [|reflexivity]. apply dget_In in G. destruct (mapped_In _ _ _ G) as [y Hy]. exfalso. exact (N m y Hy Cm). }
        exists (mapped a'), []. split; [clear -G; induction (mapped a') as [|[k y] t IH]; [reflexivity|]; cbn [dget dset app] in *; destruct (str_eqb m k) eqn:E; [discriminate|rewrite (IH G); reflexivity]|].
        intros m' d H. destruct (mapped_In _ _ _ H) as [y Hy]. exact (N m' y Hy).
      + exfalso. change ((m, p) :: b' ++ [x]) with (((m, p) :: b') ++ [x]) in E. rewrite app_assoc in E. apply app_inj_tail in E as [_ <-]. apply (L p0). apply in_or_app. right; left; reflexivity.
    - assert (F : forall x, latest (a ++ (m, p0) :: b) m x -> first_is (dset k q (mapped (a ++ (m, p0) :: b))) (if str_eqb k m then q else x)) by (intros x Hx; apply first_set, IH, Hx).
      assert (X : mapped (a ++ (m, p0) :: b ++ [(k, q)]) = dset k q (mapped (a ++ (m, p0) :: b))) by (unfold mapped; change ((m, p0) :: b ++ [(k, q)]) with (((m, p0) :: b) ++ [(k, q)]); rewrite app_assoc, fold_left_app; reflexivity). rewrite X.
      change ((m, p0) :: b ++ [(k, q)]) with (((m, p0) :: b) ++ [(k, q)]) in E. rewrite app_assoc in E. destruct b' as [|x b' _] using rev_ind.
      + apply app_inj_tail in E as [E [= -> ->]]. assert (Q : exists x, latest (a ++ (m, p0) :: b) m x).
        { clear. assert (K : forall l : list (pystr * pystr), (exists q, In (m, q) l) -> exists x, latest l m x).
          { induction l as [|[k y] l IH] using rev_ind; intros [q I]; [destruct I|]. destruct (str_eqb k m) eqn:E; [apply str_eqb_eq in E as ->; exists y, l, []; split; [reflexivity|intros ? []]|].
            apply in_app_or in I as [I|[[= -> ->]|[]]]; [|rewrite str_eqb_refl in E; discriminate]. destruct (IH (ex_intro _ q I)) as (x & a1 & b1 & -> & L). exists x, a1, (b1 ++ [(k, y)]). split; [rewrite <- app_assoc; reflexivity|].
            intros z Hz. apply in_app_or in Hz as [Hz|[[= -> ->]|[]]]; [exact (L z Hz)|rewrite str_eqb_refl in E; discriminate]. }
          apply K. exists p0. apply in_or_app. right; left; reflexivity. }
        destruct Q as [x Hx]. specialize (F x Hx). rewrite str_eqb_refl in F. exact F.
      + change ((m, p) :: b' ++ [x]) with (((m, p) :: b') ++ [x]) in E. rewrite app_assoc in E. apply app_inj_tail in E as [E <-].
        assert (E' : str_eqb k m = false) by (destruct (str_eqb k m) eqn:C; [apply str_eqb_eq in C as ->; exfalso; apply (L q), in_or_app; right; left; reflexivity|reflexivity]).
        specialize (F p). rewrite E' in F. apply F. exists a', b'. split; [exact E|]. intros z Hz. apply (L z), in_or_app. auto.
  Qed.
End Table.

(** ** C122 *)
Section Mapping.
  Variable auth : pystr -> option authority.
  (** What holds: the mapping made first among those that cover the URI is used, with
      the target it was given last; a target that is empty counts as no mapping. *)
  Theorem C122_used_partial calls v m p rest : made auth v -> base_key v = m ++ rest -> earliest calls (base_key v) m -> latest calls m p ->
    (p <> [] -> exists file tail, map_resolve auth (mapped calls) v = Ok file /\ file = p ++ tail /\
       (tail = [] \/ (exists d, p = d ++ u "/") \/ exists t, tail = 47 :: t) /\ names tail = names rest) /\
    (p = [] -> map_resolve auth (mapped calls) v = if str_eqb (u_scheme v) [] || str_eqb (u_scheme v) (u "file") then Ok (u_path v) else Raise EValue).
  Proof.
    intros Hv E Ea La. destruct (first_mapped (base_key v) m (proj1 Ea) calls p Ea La) as (l1 & l2 & Et & N).
    assert (M : maps_to (mapped calls) (base_key v) m p rest) by (split; [exact E|]; exists l1, l2; split; [exact Et|]; intros m' d' I r C; apply (N m' d' I); exists r; exact C).
    split; [intro Hp; exact (C57_mapped auth _ v m p rest Hv M Hp)|]. intros ->.
    pose proof (key_of_made auth v Hv) as Hk. unfold key_of in Hk. apply bind_Ok in Hk as (b & Eb & Ek). injection Ek as Ek.
    unfold map_resolve. rewrite Eb. cbn [bind]. rewrite Ek, (first_mapping_spec _ _ _ _ _ M). reflexivity.
  Qed.
  (** so if one mapping alone covers the URI, it is used, in whatever order they were made *)
  Theorem C122_alone calls v m p rest : made auth v -> base_key v = m ++ rest -> (forall m' q, In (m', q) calls -> covers m' (base_key v) -> m' = m) -> latest calls m p -> p <> [] ->
    exists file tail, map_resolve auth (mapped calls) v = Ok file /\ file = p ++ tail /\
       (tail = [] \/ (exists d, p = d ++ u "/") \/ exists t, tail = 47 :: t) /\ names tail = names rest.
  Proof.
    intros Hv E A La Hp. refine (proj1 (C122_used_partial calls v m p rest Hv E _ La) Hp). split; [exists rest; exact E|].
    assert (I : exists q, In (m, q) calls) by (destruct La as (a & b & -> & _); exists p; apply in_or_app; right; left; reflexivity). clear La.
    induction calls as [|[k y] calls IH]; [destruct I as [? []]|]. destruct (str_eqb k m) eqn:C; [apply str_eqb_eq in C as ->; exists [], y, calls; split; [reflexivity|intros ? ? []]|].
    assert (I' : exists q, In (m, q) calls) by (destruct I as [q [[= -> ->]|I]]; [rewrite str_eqb_refl in C; discriminate|eauto]).
    destruct (IH (fun m' q J => A m' q (or_intror J)) I') as (a & q & b & -> & N). exists ((k, y) :: a), q, b. split; [reflexivity|]. intros m' q' [[= <- <-]|J]; [|exact (N m' q' J)].
    intro Cv. pose proof (A k y (or_introl eq_refl) Cv) as ->. rewrite str_eqb_refl in C. discriminate.
  Qed.
  (** a URI that no mapping covers *)
  Theorem C122_uncovered calls v : made auth v -> (forall m q, In (m, q) calls -> ~ covers m (base_key v)) ->
    map_resolve auth (mapped calls) v = if str_eqb (u_scheme v) [] || str_eqb (u_scheme v) (u "file") then Ok (u_path v) else Raise EValue.
  Proof.
    intros Hv N. apply C57_unmapped; [exact Hv|]. intros m d I r E. destruct (mapped_In _ _ _ I) as [q Hq]. apply (N m q Hq). exists r. exact E.
  Qed.
End Mapping.

(** ** What does not hold *)
(** The longer mapping does not win over the one made first *)
Theorem C122_refuted : exists calls v m p, mk_uri toy (u "http://h/a/x.json") = Ok v /\
  calls = [(u "http://h/", u "/all"); (u "http://h/a/", u "/special")] /\ latest calls m p /\ covers m (base_key v) /\
  (forall m' q, In (m', q) calls -> covers m' (base_key v) -> (length m' <= length m)%nat) /\
  p = u "/special" /\ map_resolve toy (mapped calls) v = Ok (u "/all/a/x.json") /\
  map_resolve toy (mapped (rev calls)) v = Ok (u "/special/x.json").
Proof.
  eexists. eexists. exists (u "http://h/a/"), (u "/special"). split; [vm_compute; reflexivity|]. split; [reflexivity|].
  split; [exists [(u "http://h/", u "/all")], []; split; [reflexivity|intros ? []]|]. split; [exists (u "x.json"); vm_compute; reflexivity|].
  split; [intros m' q [[= <- <-]|[[= <- <-]|[]]] _; vm_compute; lia|]. split; [reflexivity|]. split; vm_compute; reflexivity.
Qed.
(** A mapping covers URIs that only begin with the same letters *)
Theorem C122_segment_refuted : exists v, mk_uri toy (u "http://h/abc/x.json") = Ok v /\
  map_resolve toy (mapped [(u "http://h/a", u "/d"); (u "http://h/abc/", u "/e")]) v = Ok (u "/d/bc/x.json").
Proof. eexists. split; vm_compute; reflexivity. Qed.
(** An empty target hides every later mapping *)
Theorem C122_empty_refuted : exists v, mk_uri toy (u "http://h/a/x.json") = Ok v /\
  map_resolve toy (mapped [(u "http://h/", u ""); (u "http://h/a/", u "/e")]) v = Raise EValue /\
  map_resolve toy (mapped [(u "http://h/a/", u "/e")]) v = Ok (u "/e/x.json").
Proof. eexists. split; [vm_compute; reflexivity|]. split; vm_compute; reflexivity. Qed.
(** three mappings, one given a second target, and a URI that one of them covers *)
Definition C122_calls : list (pystr * pystr) := [(u "http://h/b/", u "/1"); (u "http://h/a/", u "/2"); (u "http://h/c/", u "/3"); (u "http://h/a/", u "/4/")].
Example C122_some : exists v, made toy v /\ base_key v = u "http://h/a/" ++ u "y/x.json" /\ latest C122_calls (u "http://h/a/") (u "/4/") /\
  earliest C122_calls (base_key v) (u "http://h/a/") /\ (forall m' q, In (m', q) C122_calls -> covers m' (base_key v) -> m' = u "http://h/a/") /\
  map_resolve toy (mapped C122_calls) v = Ok (u "/4/y/x.json").
Proof.
  assert (N : forall m q, In (m, q) C122_calls -> covers m (base_key (ex_uri (u "http://h/a/y/x.json?q"))) -> m = u "http://h/a/").
  { intros m q I [r E]. vm_compute in E. destruct I as [[= <- <-]|[[= <- <-]|[[= <- <-]|[[= <- <-]|[]]]]]; try reflexivity; vm_compute in E; discriminate E. }
  exists (ex_uri (u "http://h/a/y/x.json?q")). split; [eapply ex_made; vm_compute; reflexivity|]. split; [vm_compute; reflexivity|].
  split; [exists (firstn 3 C122_calls), []; split; [reflexivity|intros ? []]|].
  split; [split; [exists (u "y/x.json"); vm_compute; reflexivity|]; exists (firstn 1 C122_calls), (u "/2"), (skipn 2 C122_calls); split; [reflexivity|]; intros m' q [[= <- <-]|[]] C; specialize (N (u "http://h/b/") (u "/1") (or_introl eq_refl) C); discriminate N|].
  split; [exact N|vm_compute; reflexivity].
Qed.
