(** C48, C50: anchors and ids of loaded documents. *)
From Verif Require Import PyBase PyBaseFacts PyVal OrderFacts Regex Numbers Uri Pointer PropsPointer Store Validators Heap HeapFacts PropsWrap PropsPlaces PropsUriEx Doc DocMono DocFacts PropsQuery DocLoad PropsLoad DocDocument.
Local Open Scope nat_scope.
Local Notation length := List.length (only parsing).

(** ** After the deeds *)
Lemma dget_dset_eq {A} k (x : A) d : dget k (dset k x d) = Some x.
Proof. rewrite dget_dset, str_eqb_refl. reflexivity. Qed.
Lemma dget_dset_neq {A} k k' (x : A) d : k <> k' -> dget k (dset k' x d) = dget k d.
Proof. intro N. rewrite dget_dset. destruct (str_eqb_spec k k'); [contradiction|reflexivity]. Qed.
Lemma done_anchor s name l : forall acc x, nth_error (fst acc) s = Some x ->
  exists x', nth_error (fst (fold_left (done s) l acc)) s = Some x' /\
    ((exists b, In (DAnchor name b) l /\ dget name (s_anchors x') = Some b) \/ ((forall b, ~ In (DAnchor name b) l) /\ dget name (s_anchors x') = dget name (s_anchors x))).
Proof.
  induction l as [|e l IH]; intros [ss st] x H; cbn [fold_left fst] in *; [exists x; split; [exact H|right; split; [intros b []|reflexivity]]|].
  assert (K : exists x1, nth_error (fst (done s (ss, st) e)) s = Some x1 /\
     ((exists b, e = DAnchor name b /\ dget name (s_anchors x1) = Some b) \/ ((forall b, e <> DAnchor name b) /\ dget name (s_anchors x1) = dget name (s_anchors x)))).
  { destruct e as [t a|k v a|k v]; cbn [done fst].
    - rewrite nth_upd, Nat.eqb_refl, H. cbn. eexists. split; [reflexivity|]. cbn [s_anchors]. destruct (str_eqb_spec name t) as [->|N].
      + left. exists a. split; [reflexivity|]. apply dget_dset_eq.
      + right. split; [congruence|]. apply dget_dset_neq. exact N.
    - exists x. split; [|right; split; [discriminate|reflexivity]]. rewrite nth_error_app1; [exact H|]. apply nth_error_Some. congruence.
    - rewrite nth_upd, Nat.eqb_refl, H. cbn. eexists. split; [reflexivity|]. right. split; [discriminate|reflexivity]. }
  destruct K as (x1 & H1 & K1). destruct (IH _ _ H1) as (x2 & H2 & K2). exists x2. split; [exact H2|]. destruct K2 as [(b & I & G)|(N & G)]; [left; exists b; split; [right; exact I|exact G]|].
  destruct K1 as [(b & -> & G1)|(N1 & G1)]; [left; exists b; split; [left; reflexivity|congruence]|]. right. split; [|congruence]. intros b [E|E]; [exact (N1 b E)|exact (N b E)].
Qed.
(** the document registered last under [k] *)
Lemma done_reg s k l : forall ss st, s < length ss ->
  let '(ss', st') := fold_left (done s) l (ss, st) in
  length ss <= length ss' /\ (forall i, i < length ss -> i <> s -> nth_error ss' i = nth_error ss i) /\
  ((exists v b n, In (DReg k v b) l /\ dget k st' = Some n /\ n <> s /\ nth_error ss' n = Some (Schema b false core [] (Some v))) \/
   ((forall v b, ~ In (DReg k v b) l) /\ ((forall v, ~ In (DRoot k v) l) \/ dmem k st = true) /\ dget k st' = dget k st) \/
   ((forall v b, ~ In (DReg k v b) l) /\ (exists v, In (DRoot k v) l) /\ dmem k st = false /\ dget k st' = Some s)).
Proof.
  induction l as [|e l IH]; intros ss st L; cbn [fold_left].
  { split; [lia|]. split; [auto|]. right. left. split; [intros ? ? []|]. split; [left; intros ? []|reflexivity]. }
  destruct e as [t a|k1 v a|k1 v]; cbn [done].
  - specialize (IH (upd ss s (fun x => Schema (s_value x) (s_ready x) (s_voc x) (dset t a (s_anchors x)) (s_id x))) st). rewrite upd_length in IH. specialize (IH L).
    destruct (fold_left (done s) l _) as [ss' st']. destruct IH as (I1 & I2 & I3). split; [exact I1|]. split.
    { intros i Li Ni. rewrite I2 by assumption. rewrite nth_upd. destruct (Nat.eqb_spec s i); [congruence|reflexivity]. }
    destruct I3 as [(v & b & n & I & R)|[(A & B & C)|(A & (v & B) & C)]]; [left; exists v, b, n; split; [right; exact I|exact R]|right; left|right; right].
    + split; [intros v b [E|E]; [discriminate|exact (A _ _ E)]|]. split; [|exact C]. destruct B as [B|B]; [left; intros v [E|E]; [discriminate|exact (B _ E)]|auto].
    + split; [intros v' b [E|E]; [discriminate|exact (A _ _ E)]|]. split; [exists v; right; exact B|exact C].
  - specialize (IH (ss ++ [Schema a false core [] (Some v)]) (dset k1 (length ss) st)). rewrite app_length in IH. cbn [List.length] in IH. specialize (IH ltac:(lia)).
    destruct (fold_left (done s) l _) as [ss' st']. destruct IH as (I1 & I2 & I3). split; [lia|]. split.
    { intros i Li Ni. rewrite I2 by lia. apply nth_error_app1. exact Li. }
    destruct I3 as [(v' & b & n & I & R)|I3]; [left; exists v', b, n; split; [right; exact I|exact R]|].
    destruct (str_eqb_spec k k1) as [->|N].
    + destruct I3 as [(A & _ & C)|(A & _ & C & _)]; [|unfold dmem in C; rewrite dget_dset_eq in C; discriminate].
      left. exists v, a, (length ss). rewrite dget_dset_eq in C. split; [left; reflexivity|]. split; [exact C|]. split; [lia|]. rewrite I2 by lia. rewrite nth_error_app2, Nat.sub_diag by lia. reflexivity.
    + unfold dmem in *. rewrite dget_dset_neq in I3 by exact N. right. destruct I3 as [(A & B & C)|(A & (v' & B) & C)]; [left|right].
      * split; [intros v' b [E|E]; [congruence|exact (A _ _ E)]|]. split; [|exact C]. destruct B as [B|B]; [left; intros v' [E|E]; [discriminate|exact (B _ E)]|auto].
      * split; [intros v'' b [E|E]; [congruence|exact (A _ _ E)]|]. split; [exists v'; right; exact B|exact C].
  - specialize (IH (upd ss s (fun x => Schema (s_value x) (s_ready x) (s_voc x) (s_anchors x) (Some v))) (if dmem k1 st then st else dset k1 s st)). rewrite upd_length in IH. specialize (IH L).
    destruct (fold_left (done s) l _) as [ss' st']. destruct IH as (I1 & I2 & I3). split; [exact I1|]. split.
    { intros i Li Ni. rewrite I2 by assumption. rewrite nth_upd. destruct (Nat.eqb_spec s i); [congruence|reflexivity]. }
    destruct I3 as [(v' & b & n & I & R)|I3]; [left; exists v', b, n; split; [right; exact I|exact R]|]. right.
    destruct (str_eqb_spec k k1) as [->|N].
    + destruct (dmem k1 st) eqn:Em.
      * left. destruct I3 as [(A & B & C)|(A & B & C & _)]; [|congruence]. split; [intros v' b [E|E]; [discriminate|exact (A _ _ E)]|]. split; [auto|exact C].
      * right. destruct I3 as [(A & B & C)|(A & B & C & _)]; [|unfold dmem in C; rewrite dget_dset_eq in C; discriminate]. rewrite dget_dset_eq in C.
        split; [intros v' b [E|E]; [discriminate|exact (A _ _ E)]|]. split; [exists v; left; reflexivity|auto].
    + assert (Eg : dget k (if dmem k1 st then st else dset k1 s st) = dget k st) by (destruct (dmem k1 st); [reflexivity|apply dget_dset_neq, N]).
      assert (Em : dmem k (if dmem k1 st then st else dset k1 s st) = dmem k st) by (unfold dmem at 1; rewrite Eg; reflexivity).
      rewrite Eg, Em in I3. destruct I3 as [(A & B & C)|(A & (v' & B) & C)]; [left|right].
      * split; [intros v' b [E|E]; [discriminate|exact (A _ _ E)]|]. split; [|exact C]. destruct B as [B|B]; [left; intros v' [E|E]; [congruence|exact (B _ E)]|auto].
      * split; [intros v'' b [E|E]; [discriminate|exact (A _ _ E)]|]. split; [exists v'; right; exact B|exact C].
Qed.
Lemma spot_unique base v q b y : spot base v q b y -> forall b' y', spot base v q b' y' -> b' = b /\ y' = y.
Proof. induction 1 as [base v|base d k c x q b y G1 G2 _ IH]; intros b' y' S'; inversion S'; subst; [auto|]. apply IH. congruence. Qed.

Lemma inside_distinct v q y : inside v q y -> distinct v -> distinct y.
Proof. induction 1 as [|d k x p y G _ IH]; intro D; [exact D|]. apply IH. eapply distinct_member; eassumption. Qed.
Lemma inside_unique v q y : inside v q y -> forall y', inside v q y' -> y' = y.
Proof. induction 1 as [|d k x p y G _ IH]; intros y' I'; inversion I'; subst; [reflexivity|]. apply IH. congruence. Qed.

Section Anchors.
  Variables (auth : pystr -> option authority) (dig : N -> option Z) (strx : heap -> addr -> pystr) (fetch : uri -> res pv).
  Notation Runs := (Runs auth dig strx fetch).
  Notation ev := (ev auth dig strx fetch).

  (** ** C48 *)
  (** the object at path [q] of [v], outside arrays, declares the anchor [name] *)
  Definition declares (v : pv) (q : list pystr) (name : pystr) : Prop :=
    exists d, inside v q (VDict d) /\ dget (u "$ref") d = None /\ dget (u "$anchor") d = Some (VStr name).

  Lemma query_loads s p w w' b : ev (fun rec => load rec s) w w' (Ok tt) -> Runs (CQuery s p) w' w' (Ok b) -> Runs (CQuery s p) w w' (Ok b).
  Proof.
    intros L R. pose proof (C45_again auth dig strx fetch s w w' L) as L'. apply ev_step. cbn [Doc.step]. unfold query. eapply ev_bind; [exact L|].
    destruct R as [n0 R]. destruct L' as [n1 L']. exists (Nat.max n0 n1). intros n Hn. specialize (R (S n) ltac:(lia)). specialize (L' n ltac:(lia)).
    change (exec auth dig strx fetch (S n) addr (CQuery s p)) with (query dig (exec auth dig strx fetch n) s p) in R. unfold query in R. unfold mbind at 1 in R. rewrite L' in R. exact R.
  Qed.

  (** After loading, the pointer [/name] gives an object that declared the
      anchor, at the place where it was, with its other members. *)
  Theorem C48_found w v s w0 r q0 name : fit_document auth v -> opened w v s w0 -> root_at w0 s r -> declares v q0 name ->
    exists w' b its q d, declares v q name /\ inside v q (VDict d) /\ walk (w_heap w0) r q b /\
      ev (fun rec => load rec s) w0 w' (Ok tt) /\ Runs (CQuery s [name]) w' w' (Ok b) /\ Runs (CQuery s [name]) w0 w' (Ok b) /\
      val (w_heap w') b (PObj its) /\ dkeys its = dkeys (ddel (u "$anchor") d) /\ dget (u "$anchor") its = None.
  Proof.
    intros ((d0 & ->) & Ds & Ft) O (x0 & Hx0 & Er) (dq & Iq & Nq & Aq).
    destruct (opened_dict _ _ _ _ O) as (Es & Est & Ess & Eh).
    assert (r = length (w_heap w)) as ->. { subst s. rewrite Ess, nth_error_app2, Nat.sub_diag in Hx0 by lia. injection Hx0 as <-. cbn in Er. auto. }
    clear x0 Hx0 Er.
    destruct (fit_plan auth (id_of (VDict d0)) (VDict d0) (length (w_heap w)) [] Ft) as [l Pl].
    destruct (load_document auth dig strx fetch w d0 s w0 l O Pl) as (w' & x' & L & Hx' & Rx' & Vx' & Ld & Sl & Fr & (ss & Efold & Ess') & Kp).
    assert (Hs : nth_error (w_schemas w0) s = Some (fresh (length (w_heap w)) core)) by (rewrite Ess, Es, nth_error_app2, Nat.sub_diag by lia; reflexivity).
    destruct (done_anchor s name l (w_schemas w0, w_store w0) _ Hs) as (x1 & Hx1 & An). rewrite Efold in Hx1. cbn [fst] in Hx1.
    assert (Ex : s_anchors x' = s_anchors x1). { rewrite Ess', nth_upd, Nat.eqb_refl, Hx1 in Hx'. cbn in Hx'. injection Hx' as <-. reflexivity. }
    destruct (inside_spot _ _ _ Iq (length (w_heap w))) as [bq Sq].
    destruct An as [(b & Ib & Gb)|(C & _)]; [|exfalso; apply (C bq); apply (plan_anchors auth _ name bq _ Ds _ _ _ Pl); exists q0, dq; auto].
    apply (plan_anchors auth _ name b _ Ds _ _ _ Pl) in Ib as (q & d & Sp & Nd & Ad).
    pose proof (Kp q b d Sp Nd) as Lb. inversion Lb as [? ? C|? ? its _ V F|? ? ? ? ? ? ? G]; subst; [exfalso; eapply C; reflexivity| |congruence].
    pose proof (spot_inside _ _ _ _ _ Sp) as Id.
    assert (R : Runs (CQuery (length (w_schemas w)) [name]) w' w' (Ok b)).
    { apply ev_step. cbn [Doc.step]. unfold query. eapply ev_bind; [apply ev_pure, (load_ready w' _ x' Hx' Rx')|]. eapply ev_known; [apply schema_at_ok, Hx'|]. rewrite Ex, Gb. apply ev_ret. }
    assert (Ek : dkeys its = dkeys (ddel (u "$anchor") d)). { clear -F. unfold dkeys. revert F. generalize (ddel (u "$anchor") d). intros dd F. induction F as [|[k1 c] [k2 x] its d' [E _] _ IH]; [reflexivity|]. cbn [map fst] in *. congruence. }
    exists w', b, its, q, d. split; [exists d; auto|]. split; [exact Id|]. split; [eapply spot_walk; [rewrite Eh; apply placed_end|exact Sp]|].
    split; [exact L|]. split; [exact R|]. split; [eapply query_loads; eassumption|]. split; [exact V|]. split; [exact Ek|].
    destruct (dget (u "$anchor") its) as [c|] eqn:G; [|reflexivity]. exfalso. apply dget_In in G. apply (in_map fst) in G. change (map fst its) with (dkeys its) in G. rewrite Ek in G. cbn [fst] in G.
    assert (Dd : distinct (VDict d)). { exact (inside_distinct _ _ _ Id Ds). }
    inversion Dd as [? _ C|?|? Nk _]; subst; [eapply C; reflexivity|]. clear -G Nk. unfold dkeys in *. induction d as [|[k x] d IH]; [exact G|]. cbn [map fst] in Nk. inversion Nk as [|? ? N1 N2]; subst. cbn [ddel] in G.
    destruct (str_eqb_spec (u "$anchor") k) as [<-|N]; [exact (N1 G)|]. destruct G as [E|G]; [apply N; symmetry; exact E|]. exact (IH G N2).
  Qed.
  (** C48, for a name declared once *)
  Theorem C48_anchor w v s w0 r q d name : fit_document auth v -> opened w v s w0 -> root_at w0 s r ->
    inside v q (VDict d) -> declares v q name -> (forall q', declares v q' name -> q' = q) ->
    exists w' b its, walk (w_heap w0) r q b /\
      ev (fun rec => load rec s) w0 w' (Ok tt) /\ Runs (CQuery s [name]) w' w' (Ok b) /\ Runs (CQuery s [name]) w0 w' (Ok b) /\
      val (w_heap w') b (PObj its) /\ dkeys its = dkeys (ddel (u "$anchor") d) /\ dget (u "$anchor") its = None.
  Proof.
    intros Ft O Rt I D Un. destruct (C48_found w v s w0 r q name Ft O Rt D) as (w' & b & its & q' & d' & D' & I' & R). rewrite (Un q' D') in *.
    exists w', b, its. assert (Ed : VDict d' = VDict d); [|injection Ed as ->; exact R].
    exact (inside_unique _ _ _ I _ I').
  Qed.
  (** the text of the pointer *)
  Theorem C48_text s name w w' b : Runs (CQuery s [name]) w w' (Ok b) -> ev (fun rec => p <~ lift (pointer_parse (pointer_str (pointer_from_list [name]))) ;; rec addr (CQuery s p)) w w' (Ok b).
  Proof. intro R. eapply ev_known; [unfold lift; rewrite C01_tokens_survive by discriminate; reflexivity|]. exact R. Qed.

  (** ** C50 *)
  (** the object at path [q] of [v], outside arrays and enums, not the root, has
      an id that means the URI [x] *)
  Definition gives_id (v : pv) (q : list pystr) (x : uri) : Prop :=
    exists d t, inside v q (VDict d) /\ dget (u "$ref") d = None /\ id_member d = Some (VStr t) /\ q <> [] /\ ~ In (u "enum") q /\ named auth (id_of v) t x.

  Lemma plan_root root d a l : plan auth root a [] (VDict d) l -> forall k v,
    In (DRoot k v) l <-> dget (u "$ref") d = None /\ exists t, id_member d = Some (VStr t) /\ mk_uri auth t = Ok v /\ u_frag v = [] /\ is_absolute auth v = Ok true /\ key_of auth v = Ok k.
  Proof.
    intros Pl k v. inversion Pl as [? ? ? C|? ? ? ls o Pls Ho]; subst; [exfalso; eapply C; reflexivity|].
    assert (N : ~ In (DRoot k v) ls).
    { clear -Pls. revert Pls. generalize (S a). revert ls. induction d as [|[k1 x] d IH]; intros ls b Pls H; inversion Pls; subst; [destruct H|]. apply in_app_iff in H as [H|H].
      - eapply plan_no_root; [eassumption|discriminate|exact H].
      - eapply IH; eassumption. }
    rewrite in_app_iff. split.
    - intros [H|H]; [contradiction|]. inversion Ho as [? ? ? E1 L E2 E3|la li E1 Oa Oi]; subst; [destruct H|]. apply in_app_iff in H as [H|H]; [inversion Oa; subst; cbn in H; intuition discriminate|].
      split; [exact E1|]. inversion Oi; subst; try congruence; [destruct H|destruct H as [H|[]]]. injection H as <- <-. eauto 10.
    - intros (E & t & It & Mt & Ft & Ab & Kt). right. inversion Ho as [? ? ? E1 L E2 E3|la li E1 Oa Oi]; subst; [congruence|]. apply in_or_app. right.
      inversion Oi as [C|? ? ? C|? ? ? ? C|t' v' k' I' _ M' _ _ K']; subst; try congruence. rewrite It in I'. injection I' as <-. rewrite Mt in M'. injection M' as <-. rewrite Kt in K'. injection K' as <-. left. reflexivity.
  Qed.
  Lemma done_id s l : forall acc x, nth_error (fst acc) s = Some x -> exists x', nth_error (fst (fold_left (done s) l acc)) s = Some x' /\
    ((exists k v, In (DRoot k v) l /\ s_id x' = Some v) \/ ((forall k v, ~ In (DRoot k v) l) /\ s_id x' = s_id x)).
  Proof.
    induction l as [|e l IH]; intros [ss st] x H; cbn [fold_left fst] in *; [exists x; split; [exact H|right; split; [intros ? ? []|reflexivity]]|].
    assert (K : exists x1, nth_error (fst (done s (ss, st) e)) s = Some x1 /\ ((exists k v, e = DRoot k v /\ s_id x1 = Some v) \/ ((forall k v, e <> DRoot k v) /\ s_id x1 = s_id x))).
    { destruct e as [t a|k v a|k v]; cbn [done fst].
      - rewrite nth_upd, Nat.eqb_refl, H. cbn. eexists. split; [reflexivity|]. right. split; [discriminate|reflexivity].
      - exists x. split; [|right; split; [discriminate|reflexivity]]. rewrite nth_error_app1; [exact H|]. apply nth_error_Some. congruence.
      - rewrite nth_upd, Nat.eqb_refl, H. cbn. eexists. split; [reflexivity|]. left. exists k, v. auto. }
    destruct K as (x1 & H1 & K1). destruct (IH _ _ H1) as (x2 & H2 & K2). exists x2. split; [exact H2|]. destruct K2 as [(k & v & I & G)|(N & G)]; [left; exists k, v; split; [right; exact I|exact G]|].
    destruct K1 as [(k & v & -> & G1)|(N1 & G1)]; [left; exists k, v; split; [left; reflexivity|congruence]|]. right. split; [|congruence]. intros k v [E|E]; [exact (N1 _ _ E)|exact (N _ _ E)].
  Qed.

  (** everything known about the store after a load *)
  Lemma load_store w v s w0 r : fit_document auth v -> opened w v s w0 -> root_at w0 s r -> exists w', ev (fun rec => load rec s) w0 w' (Ok tt) /\
    (forall k, 
      (exists q x b n, gives_id v q x /\ key_of auth x = Ok k /\ walk (w_heap w0) r q b /\ dget k (w_store w') = Some n /\ nth_error (w_schemas w') n = Some (Schema b false core [] (Some x))) \/
      ((forall q x, gives_id v q x -> key_of auth x <> Ok k) /\
       ((exists t x, id_of v = Some t /\ mk_uri auth t = Ok x /\ key_of auth x = Ok k /\ dmem k (w_store w) = false /\ dget k (w_store w') = Some s) \/
        (((forall t x, id_of v = Some t -> mk_uri auth t = Ok x -> key_of auth x <> Ok k) \/ dmem k (w_store w) = true) /\ dget k (w_store w') = dget k (w_store w))))) /\
    exists x', nth_error (w_schemas w') s = Some x' /\ forall t x, id_of v = Some t -> mk_uri auth t = Ok x -> s_id x' = Some x.
  Proof.
    intros ((d0 & ->) & Ds & Ft) O (x0 & Hx0 & Er).
    destruct (opened_dict _ _ _ _ O) as (Es & Est & Ess & Eh).
    assert (r = length (w_heap w)) as ->. { subst s. rewrite Ess, nth_error_app2, Nat.sub_diag in Hx0 by lia. injection Hx0 as <-. cbn in Er. auto. }
    clear x0 Hx0 Er.
    destruct (fit_plan auth (id_of (VDict d0)) (VDict d0) (length (w_heap w)) [] Ft) as [l Pl].
    destruct (load_document auth dig strx fetch w d0 s w0 l O Pl) as (w' & x' & L & Hx' & Rx' & Vx' & Ld & Sl & Fr & (ss & Efold & Ess') & Kp).
    assert (Hs : nth_error (w_schemas w0) s = Some (fresh (length (w_heap w)) core)) by (rewrite Ess, Es, nth_error_app2, Nat.sub_diag by lia; reflexivity).
    assert (Hid : forall t, id_of (VDict d0) = Some t -> dget (u "$ref") d0 = None /\ id_member d0 = Some (VStr t) /\ exists x k, mk_uri auth t = Ok x /\ u_frag x = [] /\ is_absolute auth x = Ok true /\ key_of auth x = Ok k).
    { intros t It. cbn [id_of] in It. destruct (id_member d0) as [[| | | | |t'| |]|] eqn:Ei; try discriminate. injection It as ->.
      inversion Ft as [? ? C|? ? Fo _]; subst; [exfalso; eapply C; reflexivity|]. destruct Fo as [(? & ? & ? & _ & _ & _ & C)|(N & _ & Fi)]; [congruence|]. split; [exact N|]. split; [reflexivity|].
      destruct Fi as [C|(t1 & E & [(C & _)|[(C & _)|(_ & x & k & M1 & M2 & M3 & M4)]])]; [congruence|congruence|congruence|]. rewrite Ei in E. injection E as <-. eauto 10. }
    exists w'. split; [exact L|]. split.
    - intro k. pose proof (done_reg s k l (w_schemas w0) (w_store w0) ltac:(apply nth_error_Some; congruence)) as Dr. rewrite Efold in Dr. destruct Dr as (_ & _ & Dr).
      assert (Ng : (forall v b, ~ In (DReg k v b) l) -> forall q x, gives_id (VDict d0) q x -> key_of auth x <> Ok k).
      { intros N q x (d & t & I & Nr & It & Nq & Ne & Nm) Kx. destruct (inside_spot _ _ _ I (length (w_heap w))) as [b Sb]. apply (N x b). apply (plan_regs auth _ k x b _ Ds _ _ _ Pl). exists q, d, t. cbn [app]. auto 10. }
      destruct Dr as [(v & b & n & Ib & G & Nn & Hn)|[(A & B & G)|(A & (v & B) & C & G)]].
      + left. apply (plan_regs auth _ k v b _ Ds _ _ _ Pl) in Ib as (q & d & t & Sp & Nr & It & Nq & Ne & Nm & Kk). exists q, v, b, n.
        split; [exists d, t; split; [eapply spot_inside; eassumption|auto 10]|]. split; [exact Kk|]. split; [eapply spot_walk; [rewrite Eh; apply placed_end|exact Sp]|]. split; [exact G|].
        rewrite Ess', nth_upd. destruct (Nat.eqb_spec s n); [congruence|exact Hn].
      + right. split; [exact (Ng A)|]. right. rewrite Est in *. split; [|exact G]. destruct B as [B|B]; [left|auto]. intros t x It Mt Kx. destruct (Hid t It) as (Nr & Ii & x1 & k1 & M1 & M2 & M3 & M4). rewrite Mt in M1. injection M1 as <-.
        apply (B x). apply (plan_root _ _ _ _ Pl). split; [exact Nr|]. exists t. auto 10.
      + right. split; [exact (Ng A)|]. left. rewrite Est in *. apply (plan_root _ _ _ _ Pl) in B as (Nr & t & Ii & M1 & M2 & M3 & M4). exists t, v. cbn [id_of]. rewrite Ii. auto.
    - exists x'. split; [exact Hx'|]. intros t x It Mt. destruct (done_id s l (w_schemas w0, w_store w0) _ Hs) as (x1 & Hx1 & Di). rewrite Efold in Hx1. cbn [fst] in Hx1.
      rewrite Ess', nth_upd, Nat.eqb_refl, Hx1 in Hx'. cbn in Hx'. injection Hx' as <-. cbn [s_id]. destruct (Hid t It) as (Nr & Ii & x2 & k1 & M1 & M2 & M3 & M4). rewrite Mt in M1. injection M1 as <-.
      destruct Di as [(k & v & I & ->)|(C & _)]; [|exfalso; apply (C k1 x); apply (plan_root _ _ _ _ Pl); split; [exact Nr|]; exists t; auto 10].
      apply (plan_root _ _ _ _ Pl) in I as (_ & t' & I' & M' & _). rewrite Ii in I'. injection I' as <-. congruence.
  Qed.

  (** C50: the store contains the document under its id, if that was free ... *)
  Theorem C50_root w v s w0 t x k : fit_document auth v -> opened w v s w0 ->
    id_of v = Some t -> mk_uri auth t = Ok x -> key_of auth x = Ok k -> dmem k (w_store w) = false -> (forall q y, gives_id v q y -> key_of auth y <> Ok k) ->
    exists w' x', ev (fun rec => load rec s) w0 w' (Ok tt) /\ dget k (w_store w') = Some s /\ nth_error (w_schemas w') s = Some x' /\ s_id x' = Some x.
  Proof.
    intros Ft O It Mt Kt Fr Nu. pose proof Ft as ((d & ->) & _). destruct (opened_dict _ _ _ _ O) as (Es & _ & Ess & _).
    destruct (load_store w (VDict d) s w0 (length (w_heap w)) Ft O) as (w' & L & St & x' & Hx' & Ix').
    { eexists. split; [rewrite Ess, Es, nth_error_app2, Nat.sub_diag by lia; reflexivity|reflexivity]. }
    exists w', x'. split; [exact L|]. split; [|split; [exact Hx'|eauto]].
    destruct (St k) as [(q & y & b & n & G & Ky & _)|(_ & [(t' & y & _ & _ & _ & _ & G)|([C|C] & _)])]; [destruct (Nu _ _ G Ky)|exact G|destruct (C _ _ It Mt Kt)|congruence].
  Qed.
  (** ... and each child document under the URI its id means *)
  Theorem C50_nested w v s w0 r q x k : fit_document auth v -> opened w v s w0 -> root_at w0 s r -> gives_id v q x -> key_of auth x = Ok k ->
    (forall q' y, gives_id v q' y -> key_of auth y = Ok k -> q' = q) ->
    exists w' b n, ev (fun rec => load rec s) w0 w' (Ok tt) /\ walk (w_heap w0) r q b /\ dget k (w_store w') = Some n /\ nth_error (w_schemas w') n = Some (Schema b false core [] (Some x)).
  Proof.
    intros Ft O Rt G Kx Un. destruct (load_store w v s w0 r Ft O Rt) as (w' & L & St & _). destruct (St k) as [(q' & y & b & n & G' & Ky & W & D & S)|(C & _)]; [|destruct (C _ _ G Kx)].
    pose proof (Un _ _ G' Ky) as ->. assert (y = x) as ->.
    { destruct G as (d & t & I & _ & It & _ & _ & Nm). destruct G' as (d' & t' & I' & _ & It' & _ & _ & Nm'). pose proof (inside_unique _ _ _ I _ I') as E. injection E as ->. rewrite It in It'. injection It' as <-. eapply named_unique; eassumption. }
    exists w', b, n. auto.
  Qed.
  (** all other URIs keep what they had *)
  Theorem C50_others w v s w0 k : fit_document auth v -> opened w v s w0 -> (forall q y, gives_id v q y -> key_of auth y <> Ok k) ->
    (forall t x, id_of v = Some t -> mk_uri auth t = Ok x -> key_of auth x <> Ok k) \/ dmem k (w_store w) = true ->
    exists w', ev (fun rec => load rec s) w0 w' (Ok tt) /\ dget k (w_store w') = dget k (w_store w).
  Proof.
    intros Ft O Nu Nt. pose proof Ft as ((d & ->) & _). destruct (opened_dict _ _ _ _ O) as (Es & _ & Ess & _).
    destruct (load_store w (VDict d) s w0 (length (w_heap w)) Ft O) as (w' & L & St & _).
    { eexists. split; [rewrite Ess, Es, nth_error_app2, Nat.sub_diag by lia; reflexivity|reflexivity]. }
    exists w'. split; [exact L|]. destruct (St k) as [(q & y & b & n & G & Ky & _)|(_ & [(t' & y & It & Mt & Kt & Fr & G)|(_ & G)])]; [destruct (Nu _ _ G Ky)| |exact G].
    exfalso. destruct Nt as [Nt|Nt]; [exact (Nt _ _ It Mt Kt)|congruence].
  Qed.
End Anchors.

(** ** Deciding whether a document is fit, for the cases below *)
Section Decide.
  Variable auth : pystr -> option authority.
  Definition okb {A} (r : res A) (p : A -> bool) : bool := match r with Ok a => p a | _ => false end.
  Lemma okb_spec {A} (r : res A) p : okb r p = true -> exists a, r = Ok a /\ p a = true.
  Proof. destruct r; try discriminate. eauto. Qed.
  Definition localb (t : pystr) : bool :=
    okb (mk_uri auth t) (fun v => okb (pointer_parse (u_frag v)) (fun _ => okb (base_uri auth v) (fun b => negb (uri_bool b)))).
  Lemma localb_ok t : localb t = true -> exists v p, local auth t v p.
  Proof.
    intro H. apply okb_spec in H as (v & Hv & H). apply okb_spec in H as (p & Hp & H). apply okb_spec in H as (b & Hb & H). exists v, p. split; [exact Hv|]. split; [exact Hp|]. exists b. split; [exact Hb|]. destruct (uri_bool b); [discriminate|reflexivity].
  Qed.
  Definition nilb (t : pystr) : bool := match t with [] => true | _ => false end.
  Definition name_of (root : option pystr) (t : pystr) : res uri :=
    v <- mk_uri auth t ;;
    if negb (nilb (u_frag v)) then Raise EValue else
    b <- is_absolute auth v ;;
    if b : bool then Ok v else
    match root with
    | None => Raise EValue
    | Some rt => bu <- mk_uri auth rt ;; v' <- resolve auth bu v ;; c <- is_absolute auth v' ;; if c : bool then Ok v' else Raise EValue
    end.
  Lemma name_of_ok root t v : name_of root t = Ok v -> named auth root t v.
  Proof.
    unfold name_of, bind. destruct (mk_uri auth t) as [v1| |] eqn:E1; try discriminate. destruct (u_frag v1) eqn:E2; [|discriminate]. cbn [nilb negb].
    destruct (is_absolute auth v1) as [[|]| |] eqn:E3; try discriminate; [intros [= <-]; econstructor; eassumption|].
    destruct root as [rt|]; [|discriminate]. destruct (mk_uri auth rt) as [bu| |] eqn:E4; try discriminate. destruct (resolve auth bu v1) as [v2| |] eqn:E5; try discriminate.
    destruct (is_absolute auth v2) as [[|]| |] eqn:E6; try discriminate. intros [= <-]. eapply n_rel; eauto.
  Qed.
  Definition fit_idb (root : option pystr) (pth : list pystr) (d : list (pystr * pv)) : bool :=
    match id_member d with
    | None => true
    | Some (VStr t) =>
        match pth with
        | [] => okb (mk_uri auth t) (fun v => nilb (u_frag v) && okb (is_absolute auth v) (fun b => b) && okb (key_of auth v) (fun _ => true))
        | _ => if str_mem (u "enum") pth then okb (mk_uri auth t) (fun v => nilb (u_frag v))
               else okb (name_of root t) (fun v => okb (key_of auth v) (fun _ => true))
        end
    | _ => false
    end.
  Lemma fit_idb_ok root pth d : fit_idb root pth d = true -> fit_id auth root pth d.
  Proof.
    unfold fit_idb, fit_id. destruct (id_member d) as [[| | | | |t| |]|] eqn:Ei; try discriminate; [|auto]. intro H. right. exists t. split; [reflexivity|].
    destruct pth as [|k pth].
    - right. right. split; [reflexivity|]. apply okb_spec in H as (v & Hv & H). apply andb_prop in H as [H Hk]. apply andb_prop in H as [H1 H2]. apply okb_spec in H2 as (b & Hb & H2). apply okb_spec in Hk as (kk & Hk & _). subst b.
      exists v, kk. split; [exact Hv|]. split; [destruct (u_frag v); [reflexivity|discriminate]|auto].
    - destruct (str_mem (u "enum") (k :: pth)) eqn:Em.
      + left. split; [discriminate|]. split; [apply str_mem_In, Em|]. apply okb_spec in H as (v & Hv & H). exists v. split; [exact Hv|]. destruct (u_frag v); [reflexivity|discriminate].
      + right. left. split; [discriminate|]. split; [intro C; apply str_mem_In in C; congruence|]. apply okb_spec in H as (v & Hv & H). apply okb_spec in H as (kk & Hk & _). exists v, kk. split; [apply name_of_ok, Hv|exact Hk].
  Qed.
  Definition fit_objectb (root : option pystr) (pth : list pystr) (d : list (pystr * pv)) : bool :=
    match dget (u "$ref") d with
    | Some (VStr t) => localb t && negb (dmem (u "$anchor") d) && match id_member d with None => true | _ => false end
    | Some _ => false
    | None => match dget (u "$anchor") d with None | Some (VStr _) => fit_idb root pth d | _ => false end
    end.
  Lemma fit_objectb_ok root pth d : fit_objectb root pth d = true -> fit_object auth root pth d.
  Proof.
    unfold fit_objectb, fit_object, dmem. destruct (dget (u "$ref") d) as [[| | | | |t| |]|] eqn:Er; try discriminate.
    - intro H. apply andb_prop in H as [H H3]. apply andb_prop in H as [H1 H2]. left. destruct (localb_ok t H1) as (v & p & L). exists t, v, p. split; [reflexivity|]. split; [exact L|].
      split; [destruct (dget (u "$anchor") d); [discriminate|reflexivity]|destruct (id_member d); [discriminate|reflexivity]].
    - intro H. right. split; [reflexivity|]. destruct (dget (u "$anchor") d) as [[| | | | |t| |]|]; try discriminate; (split; [eauto|apply fit_idb_ok, H]).
  Qed.
  Fixpoint fitb (root : option pystr) (pth : list pystr) (v : pv) {struct v} : bool :=
    match v with
    | VDict d => fit_objectb root pth d && forallb (fun kx => fitb root (pth ++ [fst kx]) (snd kx)) d
    | _ => true
    end.
  Lemma fitb_ok root v : forall pth, fitb root pth v = true -> fit auth root pth v.
  Proof.
    induction v as [v Hl Hd|l IH|d IH] using pv_ind_deep; intros pth H.
    - apply fit_leaf. exact Hd.
    - apply fit_leaf. discriminate.
    - cbn [fitb] in H. apply andb_prop in H as [H1 H2]. apply fit_dict; [apply fit_objectb_ok, H1|]. clear H1. induction IH as [|kx d I1 _ IHd]; constructor; cbn [forallb] in H2; apply andb_prop in H2 as [H2 H3]; auto.
  Qed.
  Fixpoint nodupb (l : list pystr) : bool := match l with [] => true | k :: l' => negb (str_mem k l') && nodupb l' end.
  Lemma nodupb_ok l : nodupb l = true -> NoDup l.
  Proof. induction l as [|k l IH]; intro H; constructor; cbn in H; apply andb_prop in H as [H1 H2]; [|auto]. intro C. apply str_mem_In in C. rewrite C in H1. discriminate. Qed.
  Fixpoint distinctb (v : pv) : bool :=
    match v with
    | VDict d => nodupb (dkeys d) && forallb (fun kx => distinctb (snd kx)) d
    | VList l => forallb distinctb l
    | _ => true
    end.
  Lemma distinctb_ok v : distinctb v = true -> distinct v.
  Proof.
    induction v as [v Hl Hd|l IH|d IH] using pv_ind_deep; intro H.
    - apply d_scalar; assumption.
    - apply d_list. cbn [distinctb] in H. induction IH as [|x l I1 _ IHl]; constructor; cbn [forallb] in H; apply andb_prop in H as [H1 H2]; auto.
    - cbn [distinctb] in H. apply andb_prop in H as [H1 H2]. apply d_dict; [apply nodupb_ok, H1|]. clear H1. induction IH as [|x l I1 _ IHl]; constructor; cbn [forallb] in H2; apply andb_prop in H2 as [H1 H2]; auto.
  Qed.
  Lemma fit_documentb_ok d : distinctb (VDict d) = true -> fitb (id_of (VDict d)) [] (VDict d) = true -> fit_document auth (VDict d).
  Proof. intros H1 H2. split; [eauto|]. split; [apply distinctb_ok, H1|apply fitb_ok, H2]. Qed.
End Decide.

(** ** A document with an id, a child document, an anchor and a reference *)
Definition C48_value : pv := VDict [
  (u "$id", VStr (u "http://h/a/s.json"));
  (u "defs", VDict [
    (u "x", VDict [(u "$anchor", VStr (u "name")); (u "type", VStr (u "string"))]);
    (u "y", VDict [(u "$id", VStr (u "t.json")); (u "minimum", VInt 3)]);
    (u "z", VDict [(u "$ref", VStr (u "#/defs/x"))])]);
  (u "enum", VList [VDict [(u "$anchor", VStr (u "name"))]])].
Definition C48_world : world := fst (make_schema C48_value core (World [] [] [])).
Lemma C48_inside q d : inside C48_value q (VDict d) -> q = [] \/ q = [u "defs"] \/ q = [u "defs"; u "x"] \/ q = [u "defs"; u "y"] \/ q = [u "defs"; u "z"].
Proof.
  assert (G : forall A (k k' : pystr) (x y : A) d', dget k ((k', x) :: d') = Some y -> (k = k' /\ y = x) \/ dget k d' = Some y).
  { intros A k k' x y d' H. cbn [dget] in H. destruct (str_eqb_spec k k') as [->|]; [injection H as ->; auto|auto]. }
  intro I. inversion I as [|? k x p y H I1]; subst; [auto|].
  repeat (apply G in H as [(-> & ->)|H]; [inversion I1 as [|? k1 x1 p1 y1 H1 I2]; subst; auto|]); [|discriminate].
  repeat (apply G in H1 as [(-> & ->)|H1]; [inversion I2 as [|? k2 x2 p2 y2 H2 I3]; subst; auto|]); [| | |discriminate].
  all: repeat (apply G in H2 as [(-> & ->)|H2]; [inversion I3|]); discriminate.
Qed.
Example C48_some : fit_document toy C48_value /\ opened (World [] [] []) C48_value 0 C48_world /\ root_at C48_world 0 0 /\
  declares C48_value [u "defs"; u "x"] (u "name") /\ (forall q', declares C48_value q' (u "name") -> q' = [u "defs"; u "x"]).
Proof.
  split; [apply fit_documentb_ok; vm_compute; reflexivity|]. split; [reflexivity|]. split; [eexists; split; reflexivity|]. split.
  - eexists. split; [do 2 (eapply in_member; [reflexivity|]); apply in_here|split; reflexivity].
  - intros q' (d & I & _ & A). destruct (C48_inside q' d I) as [->|[->|[->|[->| ->]]]]; try reflexivity; exfalso; inversion I; subst;
      try (match goal with H : dget _ _ = Some _ |- _ => vm_compute in H; injection H as <- end); try discriminate A;
      match goal with H : inside _ _ _ |- _ => inversion H; subst end; try discriminate A;
      match goal with H : dget _ _ = Some _ |- _ => vm_compute in H; try (injection H as <-) end; try discriminate A;
      match goal with H : inside _ _ _ |- _ => inversion H; subst end; try discriminate A.
Qed.
Example C50_some : exists x y k k', id_of C48_value = Some (u "http://h/a/s.json") /\ mk_uri toy (u "http://h/a/s.json") = Ok x /\ key_of toy x = Ok k /\
  gives_id toy C48_value [u "defs"; u "y"] y /\ key_of toy y = Ok k' /\ k' = u "http://h/a/t.json" /\
  (forall q z, gives_id toy C48_value q z -> q = [u "defs"; u "y"] /\ key_of toy z <> Ok k).
Proof.
  do 4 eexists. split; [reflexivity|]. split; [vm_compute; reflexivity|]. split; [vm_compute; reflexivity|]. split.
  - do 2 eexists. split; [do 2 (eapply in_member; [reflexivity|]); apply in_here|]. split; [reflexivity|]. split; [reflexivity|]. split; [discriminate|]. split; [apply str_mem_false; vm_compute; reflexivity|].
    apply name_of_ok. vm_compute. reflexivity.
  - split; [vm_compute; reflexivity|]. split; [vm_compute; reflexivity|]. intros q z (d & t & I & N & It & Nq & _ & Nm).
    assert (Q : q = [u "defs"; u "y"]).
    { destruct (C48_inside q d I) as [->|[->|[->|[->| ->]]]]; try reflexivity; try congruence; exfalso; inversion I; subst;
      try (match goal with H : dget _ _ = Some _ |- _ => vm_compute in H; injection H as <- end); try discriminate It;
      match goal with H : inside _ _ _ |- _ => inversion H; subst end; try discriminate It;
      match goal with H : dget _ _ = Some _ |- _ => vm_compute in H; try (injection H as <-) end; try discriminate It;
      match goal with H : inside _ _ _ |- _ => inversion H; subst end; try discriminate It. }
    split; [exact Q|]. subst q. assert (t = u "t.json") as ->.
    { inversion I; subst. match goal with H : dget _ _ = Some _ |- _ => vm_compute in H; injection H as <- end. match goal with H : inside _ [_] _ |- _ => inversion H; subst end.
      match goal with H : dget _ _ = Some _ |- _ => vm_compute in H; injection H as <- end. match goal with H : inside _ [] _ |- _ => inversion H; subst end. vm_compute in It. injection It as <-. reflexivity. }
    assert (z = match name_of toy (id_of C48_value) (u "t.json") with Ok z => z | _ => z end) as ->.
    { eapply named_unique; [exact Nm|]. apply name_of_ok. vm_compute. reflexivity. }
    vm_compute. discriminate.
Qed.
