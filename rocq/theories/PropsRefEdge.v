(** C47, C49: references in arrays and at the root; loads that fail. *)
From Verif Require Import PyBase PyBaseFacts PyVal OrderFacts Regex Numbers Uri Pointer PropsPointer Store Validators Heap HeapFacts PropsWrap PropsPlaces PropsUriEx Doc DocMono DocFacts PropsQuery DocLoad PropsLoad DocDocument PropsAnchor PropsRef.
Local Open Scope nat_scope.
Local Notation length := List.length (only parsing).

Section Edge.
  Variables (auth : pystr -> option authority) (dig : N -> option Z) (strx : heap -> addr -> pystr) (fetch : uri -> res pv).
  Notation Runs := (Runs auth dig strx fetch).
  Notation ev := (ev auth dig strx fetch).
  Notation exec := (exec auth dig strx fetch).
  Notation Diverges := (Diverges auth dig strx fetch).

  (** ** C47 *)
  (** An object inside an array keeps its members, "$ref" included: its reference
      is not followed. *)
  Theorem C47_array w V s w0 p e : digits_ok dig -> fit_document auth V -> opened w V s w0 -> location V p (true, VDict e) ->
    exists w' c its, ev (fun rec => load rec s) w0 w' (Ok tt) /\ Runs (CQuery s p) w' w' (Ok c) /\ val (w_heap w') c (PObj its) /\ dkeys its = dkeys e /\ holds (w_heap w') c (VDict e).
  Proof.
    intros X Ft O L. destruct (C46_exact auth dig strx fetch w V s w0 Ft O) as (w' & Ld & M1 & _). destruct (M1 p _ (location_finds auth dig V p _ X L)) as (c & Rc & Sc).
    destruct Sc as [H _]. cbn [snd] in H. inversion H as [| | | | | | |? ? its Hv F]; subst. exists w', c, its. split; [exact Ld|]. split; [exact Rc|]. split; [exact Hv|]. split; [|exact H].
    clear -F. unfold dkeys. induction F as [|[k1 a] [k2 y] l m [E1 E2] _ IH]; [reflexivity|]. cbn [map fst] in *. congruence.
  Qed.

  Lemma bind_out {A B} (m : M A) (k : A -> M B) w : snd (m w) = OutOfFuel -> snd (mbind m k w) = OutOfFuel.
  Proof. unfold mbind. destruct (m w) as [w' [a|e|]]; cbn; congruence. Qed.
  (** A reference at the root to any location of the document, by pointer, is
      never resolved: following it needs the root, which is the reference. *)
  Theorem C47_root w d s w0 t v p : fit_document auth (VDict d) -> opened w (VDict d) s w0 -> dget (u "$ref") d = Some (VStr t) -> local auth t v p ->
    (forall k q, p = [k] -> ~ declares (VDict d) q k) ->
    exists w' x, ev (fun rec => load rec s) w0 w' (Ok tt) /\ nth_error (w_schemas w') s = Some x /\ s_ready x = true /\
      Diverges (CType (s_value x)) w' /\ (forall k q, k <> [] -> (forall q', ~ declares (VDict d) q' k) \/ q <> [] -> Diverges (CQuery s (k :: q)) w').
  Proof.
    intros Ft O Gr L Na. destruct (ready_document auth dig strx fetch w _ s w0 Ft O) as (w' & x & Ld & Hx & Rx & Lx & Dx & A1 & A2). exists w', x. split; [exact Ld|]. split; [exact Hx|]. split; [exact Rx|].
    inversion Lx as [? ? C|? ? ? C|? ? b oits t' v' p' Gr' L' Hv Hb F]; subst; [exfalso; eapply C; reflexivity|congruence|].
    rewrite Gr in Gr'. injection Gr' as <-. assert (v' = v /\ p' = p) as [-> ->]. { destruct L as (M1 & P1 & _). destruct L' as (M2 & P2 & _). rewrite M1 in M2. injection M2 as <-. rewrite P1 in P2. injection P2 as <-. auto. }
    destruct Hv as (n & Hn & En).
    assert (Ga : forall k, (forall q, ~ declares (VDict d) q k) -> dget k (s_anchors x) = None). { intros k N. destruct (dget k (s_anchors x)) as [c|] eqn:G; [|reflexivity]. destruct (A1 _ _ G) as (q & d' & Dq & _). destruct (N _ Dq). }
    assert (T : Diverges (CType (s_value x)) w').
    { intro m. induction m as [m IH] using lt_wf_ind. destruct m as [|m]; [reflexivity|]. cbn [Doc.exec Doc.step]. unfold node_type, mbind at 1. rewrite (node_at_ok _ _ _ Hn), En. cbn [r_schema r_pointer].
      destruct m as [|m]; [reflexivity|]. assert (Q : exec (S m) addr (CQuery s p) w' = (w', Ok (s_value x)) \/ snd (exec (S m) addr (CQuery s p) w') = OutOfFuel).
      { cbn [Doc.exec Doc.step]. unfold query, mbind at 1 3. rewrite (load_ready w' s x Hx Rx). unfold mbind at 1 2. rewrite (schema_at_ok _ _ _ Hx).
        assert (Fo : forall k p', snd (follow dig (exec m) (s_value x) (k :: p') w') = OutOfFuel). { intros k p'. cbn [follow]. apply bind_out, IH. lia. }
        destruct p as [|k [|k' p]]; [left; reflexivity| |right; apply Fo]. rewrite (Ga k) by (intro q; apply Na; reflexivity). destruct (str_eqb k []); [left; reflexivity|right; apply Fo]. }
      destruct Q as [Q|Q]; [|apply bind_out, Q]. unfold mbind. rewrite Q. apply IH. lia. }
    split; [exact T|]. intros k q Nk Ak m. destruct m as [|m]; [reflexivity|]. cbn [Doc.exec Doc.step]. unfold query, mbind at 1. rewrite (load_ready w' s x Hx Rx). unfold mbind at 1. rewrite (schema_at_ok _ _ _ Hx).
    assert (Fo : snd (follow dig (exec m) (s_value x) (k :: q) w') = OutOfFuel) by (cbn [follow]; apply bind_out, T).
    destruct q as [|k' q]; [|exact Fo]. destruct Ak as [Ak|C]; [|destruct (C eq_refl)]. rewrite (Ga k Ak). destruct (str_eqb_spec k []); [contradiction|exact Fo].
  Qed.

  (** ** C49 *)
  (** The first object with one of the keywords, members before their object, is
      [x]: what comes before it has none. *)
  Inductive comes_first : pv -> list (pystr * pv) -> Prop :=
  | cf_here d : Forall (fun kx => without (triggers core) (snd kx)) d -> comes_first (VDict d) d
  | cf_member l k y r d : Forall (fun kx => without (triggers core) (snd kx)) l -> comes_first y d -> comes_first (VDict (l ++ (k, y) :: r)) d.
  (** its reference is to a document that is not in the store and cannot be loaded *)
  Definition unloadable (w : world) (d : list (pystr * pv)) (e : exn) : Prop :=
    exists t v p b k, dget (u "$ref") d = Some (VStr t) /\ mk_uri auth t = Ok v /\ pointer_parse (u_frag v) = Ok p /\ base_uri auth v = Ok b /\ uri_bool b = true /\
      key_of auth v = Ok k /\ dget k (w_store w) = None /\ (fetch v = Raise e /\ e <> EFileNotFound \/ fetch v = Raise EFileNotFound /\ e = ELoad).

  Lemma items_free w s x (d : list (pystr * pv)) : forall (its : list (pystr * addr)), nth_error (w_schemas w) s = Some x -> s_voc x = core -> Forall (fun kx => without (triggers core) (snd kx)) d ->
    Forall2 (fun ka kx => fst ka = fst kx /\ holds (w_heap w) (snd ka) (snd kx)) its d ->
    ev (fun rec => mmap (fun kx => c <~ rec addr (CProcess s (snd kx)) ;; ret (fst kx, c)) its) w w (Ok its).
  Proof.
    intros its Hx Vx F Fe. revert its Fe. induction F as [|[k2 y] d Hy Fd IHd]; intros its Fe; inversion Fe as [|[k1 c] ? its' ? [E1 E2] Fe']; subst; [apply ev_ret|].
    cbn [mmap]. cbn [fst snd] in *.
    eapply ev_bind with (a := (k1, c)); [eapply ev_bind; [eapply process_free; [exact E2|exact Hx|rewrite Vx; exact Hy]|apply ev_ret]|]. eapply ev_bind; [apply IHd; assumption|apply ev_ret].
  Qed.
  Lemma first_fails v d : comes_first v d -> forall w s x a e, holds (w_heap w) a v -> nth_error (w_schemas w) s = Some x -> s_voc x = core -> unloadable w d e -> Runs (CProcess s a) w w (Raise e).
  Proof.
    induction 1 as [d F|l k y r d F _ IH]; intros w s x a e H Hx Vx U; apply ev_step; cbn [Doc.step]; unfold process; inversion H as [| | | | | | |? ? its V Fe]; subst;
      (eapply ev_bind; [apply (runs_type _ _ _ _ w a _ V eq_refl)|]); cbn [kind_of]; (eapply ev_bind; [apply ev_pure; intro rec; apply (items_obj rec w a its V)|]).
    - eapply ev_bind; [eapply items_free; eassumption|]. pose proof V as (n & Hn & En). eapply ev_known; [apply node_at_ok, Hn|]. rewrite En.
      eapply ev_known with (w1 := w) (a := tt); [unfold set_value; rewrite (hset_same _ _ _ V); destruct w; reflexivity|].
      eapply ev_known; [apply schema_at_ok, Hx|]. rewrite Vx. destruct U as (t & v & p & b & k & Gt & Mt & Pt & Bt & Ut & Kt & St & Ft).
      pose proof (dget_forall2 _ _ _ (u "$ref") Fe) as G. rewrite Gt in G. destruct G as (c & Gc & Hc). assert (Vc : val (w_heap w) c (PStr t)) by (inversion Hc; assumption).
      apply ev_pure. intro rec. unfold core. cbn [apply_kws kw_names apply_kw]. unfold mbind at 1. rewrite (any_has_obj rec w a its _ V). cbn [existsb]. unfold dmem. rewrite Gc. cbn [orb].
      unfold mbind at 1. unfold apply_ref. unfold mbind at 1. rewrite (member_obj strx rec w a its _ c t V Gc Vc). unfold lift at 1. rewrite Mt. unfold mbind at 1. unfold lift at 1. rewrite Pt. unfold mbind at 1. unfold lift at 1. rewrite Bt. unfold mbind at 1. unfold mbind at 1. rewrite (node_at_ok _ _ _ Hn), Ut.
      unfold mbind at 1. rewrite (schema_at_ok _ _ _ Hx). unfold mbind at 1. unfold store_load, store_key. unfold mbind at 1. unfold lift at 1. rewrite Kt. unfold mbind at 1. unfold get_world. rewrite St. unfold mbind at 1. unfold lift.
      destruct Ft as [[-> Ne]|[-> ->]]; [|reflexivity]. destruct e; try reflexivity. congruence.
    - apply Forall2_app_inv_r in Fe as (i1 & i2 & F1 & F2 & ->). inversion F2 as [|[k1 c] ? i3 ? [E1 E2] F3]; subst. cbn [fst snd] in *.
      eapply ev_bind_raise. specialize (IH w s x c e E2 Hx Vx U). clear -F F1 IH Hx Vx. revert i1 F1. induction F as [|[k2 z] l Hz F IHl]; intros i1 F1; inversion F1 as [|[k3 c3] ? i4 ? [E1 E2] F4]; subst; cbn [app mmap].
      + eapply ev_bind_raise. eapply ev_bind_raise. exact IH.
      + cbn [fst snd] in *. eapply ev_bind with (a := (k3, c3)); [eapply ev_bind; [eapply process_free; [exact E2|exact Hx|rewrite Vx; exact Hz]|apply ev_ret]|]. eapply ev_bind_raise. apply IHl. exact F4.
  Qed.
  (** C49, when nothing was rewritten before the failure: the load leaves no trace,
      so that the next one is a first load. *)
  Theorem C49_partial w V s w0 d e : opened w V s w0 -> comes_first V d -> unloadable w d e -> ev (fun rec => load rec s) w0 w0 (Raise e).
  Proof.
    intros O Cf U. assert (exists d0, V = VDict d0) as [d0 ->] by (inversion Cf; eauto). destruct (opened_dict _ _ _ _ O) as (Es & Est & Ess & Eh).
    assert (Hs : nth_error (w_schemas w0) s = Some (fresh (length (w_heap w)) core)) by (rewrite Ess, Es, nth_error_app2, Nat.sub_diag by lia; reflexivity).
    unfold load. eapply ev_known; [apply schema_at_ok, Hs|]. cbn [s_ready fresh s_value]. eapply ev_bind_raise.
    eapply first_fails; [exact Cf| |exact Hs|reflexivity|].
    - rewrite Eh. eapply wrap_holds, placed_end.
    - destruct U as (t & v & p & b & k & U). exists t, v, p, b, k. rewrite Est. exact U.
  Qed.
End Edge.

(** ** Cases *)
Definition C47_value : pv := VDict [
  (u "allOf", VList [VDict [(u "$ref", VStr (u "#/defs/x"))]]);
  (u "defs", VDict [(u "x", VDict [(u "minimum", VInt 3)])])].
Lemma no_anchor v : (fix ok (v : pv) : bool := match v with VDict d => negb (dmem (u "$anchor") d) && forallb (fun kx => ok (snd kx)) d | _ => true end) v = true -> forall q k, ~ declares v q k.
Proof.
  intros Hv q k (d & I & _ & A). cut (dget (u "$anchor") d = None); [congruence|]. clear A. remember (VDict d) as y eqn:Ey. revert Hv. induction I as [v|d1 k1 x p y G _ IH]; intro Hv; subst.
  - apply andb_prop in Hv as [Hv _]. unfold dmem in Hv. destruct (dget (u "$anchor") d); [discriminate|reflexivity].
  - apply IH; [reflexivity|]. apply andb_prop in Hv as [_ Hv]. rewrite forallb_forall in Hv. apply (Hv (k1, x)). apply dget_In, G.
Qed.
Example C47_array_some : fit_document toy C47_value /\ (exists w0, opened (World [] [] []) C47_value 0 w0) /\ exists e, location C47_value [u "allOf"; u "0"] (true, VDict e) /\ dmem (u "$ref") e = true.
Proof.
  split; [apply fit_documentb_ok; vm_compute; reflexivity|]. split; [eexists; reflexivity|]. eexists. split; [split; [discriminate|split; [discriminate|]]|].
  - eapply pl_member; [right; split; [reflexivity|discriminate]|reflexivity|]. eapply (pl_elem _ _ 0 _ []); [reflexivity|apply pl_here].
  - reflexivity.
Qed.
(** a document whose only sub-schema is a reference, inside an array: no reference is followed *)
Theorem C47_refuted strx fetch : exists V w0 w' c its t v p, fit_document toy V /\ opened (World [] [] []) V 0 w0 /\
  at_path V [u "allOf"; u "0"; u "$ref"] (VStr t) /\ local toy t v p /\ (exists y, at_path V p y) /\
  ev toy ex_dig strx fetch (fun rec => load rec 0) w0 w' (Ok tt) /\ Runs toy ex_dig strx fetch (CQuery 0 [u "allOf"; u "0"]) w' w' (Ok c) /\
  val (w_heap w') c (PObj its) /\ dkeys its = [u "$ref"].
Proof.
  destruct C47_array_some as (Ft & (w0 & O) & _).
  assert (L : location C47_value [u "allOf"; u "0"] (true, VDict [(u "$ref", VStr (u "#/defs/x"))])).
  { split; [discriminate|split; [discriminate|]]. eapply pl_member; [right; split; [reflexivity|discriminate]|reflexivity|]. eapply (pl_elem _ _ 0 _ []); [reflexivity|apply pl_here]. }
  destruct (C47_array toy ex_dig strx fetch _ _ _ _ _ _ ex_dig_ok Ft O L) as (w' & c & its & Ld & Rc & Hv & Ek & _).
  exists C47_value, w0, w', c, its. do 3 eexists. split; [exact Ft|]. split; [exact O|].
  split; [eapply ap_member; [reflexivity|]; eapply (ap_elem _ 0 _ [u "$ref"]); [reflexivity|]; eapply ap_member; [reflexivity|apply ap_here]|].
  split; [split; [vm_compute; reflexivity|split; [vm_compute; reflexivity|eexists; split; [vm_compute; reflexivity|reflexivity]]]|].
  split; [eexists; do 2 (eapply ap_member; [reflexivity|]); apply ap_here|]. split; [exact Ld|]. split; [exact Rc|]. split; [exact Hv|exact Ek].
Qed.
(** a reference at the root *)
Example C47_root_some : exists d t v p w0, fit_document toy (VDict d) /\ opened (World [] [] []) (VDict d) 0 w0 /\ dget (u "$ref") d = Some (VStr t) /\ local toy t v p /\
  (exists y, at_path (VDict d) p y) /\ (forall k q, p = [k] -> ~ declares (VDict d) q k).
Proof.
  exists [(u "$ref", VStr (u "#/defs/x")); (u "defs", VDict [(u "x", VDict [(u "minimum", VInt 3)])])]. do 4 eexists.
  split; [apply fit_documentb_ok; vm_compute; reflexivity|]. split; [reflexivity|]. split; [reflexivity|]. split; [split; [vm_compute; reflexivity|split; [vm_compute; reflexivity|eexists; split; [vm_compute; reflexivity|reflexivity]]]|].
  split; [eexists; do 2 (eapply ap_member; [reflexivity|]); apply ap_here|]. discriminate.
Qed.

Definition C49_value : pv := VDict [
  (u "x", VDict [(u "a", VDict [(u "$ref", VStr (u "#/x/b"))]); (u "b", VInt 1)]);
  (u "y", VDict [(u "$ref", VStr (u "other.json"))])].
Definition missing (_ : uri) : res pv := Raise EFileNotFound.
Definition present (_ : uri) : res pv := Ok (VDict []).
Definition C49_world : world := fst (make_schema C49_value core (World [] [] [])).
Lemma process_out auth dig strx fetch n s a k c its w : val (w_heap w) a (PObj ((k, c) :: its)) ->
  snd (exec auth dig strx fetch n addr (CProcess s c) w) = OutOfFuel -> snd (exec auth dig strx fetch (S n) addr (CProcess s a) w) = OutOfFuel.
Proof.
  intros V H. cbn [exec step]. unfold process. destruct n as [|n]; [reflexivity|]. destruct V as (m & Hm & E). unfold mbind at 1.
  change (exec auth dig strx fetch (S n) jtype (CType a)) with (node_type (exec auth dig strx fetch n) a). unfold node_type. unfold mbind at 1. rewrite (node_at_ok _ _ _ Hm), E. cbn [ret].
  unfold mbind at 1. unfold node_items. unfold mbind at 1. rewrite (node_at_ok _ _ _ Hm), E. cbn [ret]. apply bind_out. cbn [mmap]. apply bind_out, bind_out. exact H.
Qed.
(** A reference was rewritten before the other document turned out to be missing.
    Once that exists, a first load would succeed, but the repeated one never ends. *)
Theorem C49_refuted strx : exists w1 w2, ev toy ex_dig strx missing (fun rec => load rec 0) C49_world w1 (Raise ELoad) /\
  ev toy ex_dig strx present (fun rec => load rec 0) C49_world w2 (Ok tt) /\
  forall n, snd (load (exec toy ex_dig strx present n) 0 w1) = OutOfFuel.
Proof.
  eexists. eexists. split; [apply (ev_once _ _ _ _ (fun rec => load rec 0) _ _ _ 6); [intros; apply mono_load; assumption|vm_compute; reflexivity|discriminate]|].
  split; [apply (ev_once _ _ _ _ (fun rec => load rec 0) _ _ _ 6); [intros; apply mono_load; assumption|vm_compute; reflexivity|discriminate]|].
  match goal with |- forall n, snd (load _ 0 ?x) = _ => set (w1 := x) end.
  assert (L : forall n, snd (exec toy ex_dig strx present n addr (CProcess 0 0) w1) = OutOfFuel -> snd (load (exec toy ex_dig strx present n) 0 w1) = OutOfFuel).
  { intros n H. unfold load. unfold mbind at 1. unfold schema_at at 1. cbn [w1 w_schemas nth_error s_ready s_value]. apply bind_out. exact H. }
  assert (H : forall n, snd (exec toy ex_dig strx present n addr (CProcess 0 0) w1) = OutOfFuel).
  { intro n. induction n as [n IH] using lt_wf_ind.
    (* root, member x, member a: its type is asked, the query loads again *)
    destruct n as [|n]; [reflexivity|]. eapply process_out; [eexists; split; [reflexivity|reflexivity]|].
    destruct n as [|n]; [reflexivity|]. eapply process_out; [eexists; split; [reflexivity|reflexivity]|].
    destruct n as [|n]; [reflexivity|]. cbn [exec step]. unfold process. apply bind_out.
    destruct n as [|n]; [reflexivity|]. cbn [exec step]. unfold node_type. unfold mbind at 1. rewrite (node_at_ok _ _ _ (eq_refl : hget (w_heap w1) 7 = _)). cbn [n_val]. apply bind_out.
    destruct n as [|n]; [reflexivity|]. cbn [exec step r_schema r_pointer]. unfold query. apply bind_out. apply L. apply IH. lia. }
  intro n. apply L, H.
Qed.
(** the case of [C49_partial] *)
Example C49_some : let V := VDict [(u "a", VDict [(u "type", VInt 1)]); (u "y", VDict [(u "$ref", VStr (u "other.json"))]); (u "z", VDict [(u "$ref", VStr (u "#/a"))])] in
  (exists w0, opened (World [] [] []) V 0 w0) /\ exists d, comes_first V d /\ unloadable toy missing (World [] [] []) d ELoad.
Proof.
  intro V. split; [eexists; reflexivity|]. exists [(u "$ref", VStr (u "other.json"))]. split.
  - apply (cf_member [(u "a", VDict [(u "type", VInt 1)])] (u "y")).
    + apply Forall_cons; [|apply Forall_nil]. apply wo_dict. apply Forall_cons; [|apply Forall_nil]. split; [|apply wo_leaf; discriminate]. intro C. cbn in C. repeat destruct C as [C|C]; try discriminate C. destruct C.
    + apply cf_here. apply Forall_cons; [|apply Forall_nil]. apply wo_leaf. discriminate.
  - do 5 eexists. split; [reflexivity|]. split; [vm_compute; reflexivity|]. split; [vm_compute; reflexivity|]. split; [vm_compute; reflexivity|]. split; [reflexivity|]. split; [vm_compute; reflexivity|]. split; [reflexivity|]. right. split; reflexivity.
Qed.
