(** C49, C106: loading that meets a reference node.  A load that failed after
    references were rewritten never ends when repeated; a nested schema with a
    reference inside cannot be used through its id. *)
From Verif Require Import PyBase PyBaseFacts PyVal OrderFacts Regex Numbers Uri Pointer PropsPointer Store Validators Heap HeapFacts PropsWrap PropsPlaces PropsUriEx Doc DocMono DocFacts PropsQuery DocLoad PropsLoad DocDocument PropsAnchor PropsRef PropsRefEdge PropsNested.
Local Open Scope nat_scope.
Local Notation length := List.length (only parsing).

(** ** Walking into a reference *)
Section Walk.
  Variables (auth : pystr -> option authority) (dig : N -> option Z) (strx : heap -> addr -> pystr) (fetch : uri -> res pv).
  Notation Runs := (Runs auth dig strx fetch).
  Notation ev := (ev auth dig strx fetch).
  Notation exec := (exec auth dig strx fetch).
  Definition free (v : pv) : Prop := without (triggers core) v.
  Definition free_items (d : list (pystr * pv)) : Prop := Forall (fun kx => free (snd kx)) d.
  Definition held (h : heap) (its : list (pystr * addr)) (d : list (pystr * pv)) : Prop := Forall2 (fun ka kx => fst ka = fst kx /\ holds h (snd ka) (snd kx)) its d.
  (** The walk from [a], members in order, comes to [c]: what is before it has no
      keyword. *)
  Inductive comes_to (h : heap) : addr -> addr -> Prop :=
  | ct_here a : comes_to h a a
  | ct_member a l vs k b m c : val h a (PObj (l ++ (k, b) :: m)) -> free_items vs -> held h l vs -> comes_to h b c -> comes_to h a c.

  (** with any fuel, the answer of a terminating call or none *)
  Lemma runs_or {A} (c : call A) w w' r n : Runs c w w' r -> exec n A c w = (w', r) \/ snd (exec n A c w) = OutOfFuel.
  Proof.
    intros [n0 H]. destruct (snd (exec n A c w)) eqn:E; [left|left|right; reflexivity];
      rewrite <- (below_le auth dig strx fetch n (n + n0) ltac:(lia) A c w) by congruence; apply H; lia.
  Qed.
  Lemma mmap_prefix n w s x (vs : list (pystr * pv)) : forall l tail, nth_error (w_schemas w) s = Some x -> s_voc x = core -> free_items vs -> held (w_heap w) l vs ->
    snd (mmap (fun kx => c <~ exec n addr (CProcess s (snd kx)) ;; ret (fst kx, c)) tail w) = OutOfFuel ->
    snd (mmap (fun kx => c <~ exec n addr (CProcess s (snd kx)) ;; ret (fst kx, c)) (l ++ tail) w) = OutOfFuel.
  Proof.
    intros l tail Hx Vx F. revert l. induction F as [|[k2 y] vs Hy Fd IHd]; intros l Fe Ht; inversion Fe as [|[k1 c] ? l' ? [E1 E2] Fe']; subst; [exact Ht|].
    cbn [app mmap]. cbn [fst snd] in *. assert (R : Runs (CProcess s c) w w (Ok c)) by (eapply process_free; [exact E2|exact Hx|rewrite Vx; exact Hy]).
    destruct (runs_or _ _ _ _ n R) as [E|E].
    - unfold mbind at 1. unfold mbind at 1. rewrite E. cbn [ret]. apply bind_out. apply IHd; assumption.
    - apply bind_out, bind_out. exact E.
  Qed.
  Lemma process_prefix n w s x a l vs k c m : nth_error (w_schemas w) s = Some x -> s_voc x = core -> val (w_heap w) a (PObj (l ++ (k, c) :: m)) -> free_items vs -> held (w_heap w) l vs ->
    snd (exec n addr (CProcess s c) w) = OutOfFuel -> snd (exec (S n) addr (CProcess s a) w) = OutOfFuel.
  Proof.
    intros Hx Vx V F Fe H. cbn [Doc.exec Doc.step]. unfold process. destruct n as [|n]; [reflexivity|]. destruct V as (nd & Hm & E). unfold mbind at 1.
    change (exec (S n) jtype (CType a)) with (node_type (exec n) a). unfold node_type. unfold mbind at 1. rewrite (node_at_ok _ _ _ Hm), E. cbn [ret].
    unfold mbind at 1. unfold node_items. unfold mbind at 1. rewrite (node_at_ok _ _ _ Hm), E. cbn [ret]. apply bind_out. eapply mmap_prefix; [exact Hx|exact Vx|exact F|exact Fe|].
    cbn [mmap]. apply bind_out, bind_out. exact H.
  Qed.
  (** A document that is not loaded and in which the walk meets a reference into
      the document: loading it does not end. *)
  Theorem stuck w s x c r : nth_error (w_schemas w) s = Some x -> s_voc x = core -> s_ready x = false -> comes_to (w_heap w) (s_value x) c -> val (w_heap w) c (PRef r) -> r_schema r = s ->
    forall n, snd (load (exec n) s w) = OutOfFuel.
  Proof.
    intros Hx Vx Rx F Vr Es.
    assert (L : forall n, snd (exec n addr (CProcess s (s_value x)) w) = OutOfFuel -> snd (load (exec n) s w) = OutOfFuel).
    { intros n H. unfold load. unfold mbind at 1. rewrite (schema_at_ok _ _ _ Hx), Rx. apply bind_out. exact H. }
    assert (K : forall n, (forall m, m < n -> snd (load (exec m) s w) = OutOfFuel) -> forall a, comes_to (w_heap w) a c -> forall m, m <= n -> snd (exec m addr (CProcess s a) w) = OutOfFuel).
    { intros n IH a Fa. clear F. induction Fa as [a|a l vs k b m0 c V Fv Hv _ IHc]; intros m Lm.
      - destruct m as [|m]; [reflexivity|]. cbn [Doc.exec Doc.step]. unfold process. apply bind_out. destruct m as [|m]; [reflexivity|]. cbn [Doc.exec Doc.step].
        destruct Vr as (nd & Hn & En). unfold node_type. unfold mbind at 1. rewrite (node_at_ok _ _ _ Hn), En. apply bind_out.
        destruct m as [|m]; [reflexivity|]. cbn [Doc.exec Doc.step]. unfold query. apply bind_out. rewrite Es. apply IH. lia.
      - destruct m as [|m]; [reflexivity|]. eapply process_prefix; [exact Hx|exact Vx|exact V|exact Fv|exact Hv|]. apply IHc; [exact Vr|lia]. }
    intro n. induction n as [n IH] using lt_wf_ind. apply L. apply (K n IH); [exact F|lia].
  Qed.
  (** What the walk comes to cannot be processed: then the whole cannot. *)
  Lemma free_then w s x (d : list (pystr * pv)) : forall its tail w' e, nth_error (w_schemas w) s = Some x -> s_voc x = core -> free_items d -> held (w_heap w) its d ->
    ev (fun rec => mmap (fun kx => c <~ rec addr (CProcess s (snd kx)) ;; ret (fst kx, c)) tail) w w' (Raise e) ->
    ev (fun rec => mmap (fun kx => c <~ rec addr (CProcess s (snd kx)) ;; ret (fst kx, c)) (its ++ tail)) w w' (Raise e).
  Proof.
    intros its tail w' e Hx Vx F. revert its. induction F as [|[k2 y] d Hy Fd IHd]; intros its Fe Ht; inversion Fe as [|[k1 c] ? its' ? [E1 E2] Fe']; subst; [exact Ht|].
    cbn [app mmap]. cbn [fst snd] in *.
    eapply ev_bind with (a := (k1, c)); [eapply ev_bind; [eapply process_free; [exact E2|exact Hx|rewrite Vx; exact Hy]|apply ev_ret]|]. eapply ev_bind_raise. apply IHd; assumption.
  Qed.
  Lemma comes_raises w s x a c e : nth_error (w_schemas w) s = Some x -> s_voc x = core -> comes_to (w_heap w) a c -> Runs (CProcess s c) w w (Raise e) -> Runs (CProcess s a) w w (Raise e).
  Proof.
    intros Hx Vx F R. induction F as [a|a l vs k b m0 c V Fv Hv _ IHc]; [exact R|]. apply ev_step. cbn [Doc.step]. unfold process.
    eapply ev_bind; [apply (runs_type _ _ _ _ w a _ V eq_refl)|]. cbn [kind_of]. eapply ev_bind; [apply ev_pure; intro rec; apply (items_obj rec w a _ V)|]. eapply ev_bind_raise.
    eapply free_then; [exact Hx|exact Vx|exact Fv|exact Hv|]. cbn [mmap fst snd]. eapply ev_bind_raise. eapply ev_bind_raise. apply IHc, R.
  Qed.
  Lemma free_all w s x : forall its : list (pystr * addr), nth_error (w_schemas w) s = Some x -> s_voc x = core -> Forall (fun ka => exists v, free v /\ holds (w_heap w) (snd ka) v) its ->
    ev (fun rec => mmap (fun kx => c <~ rec addr (CProcess s (snd kx)) ;; ret (fst kx, c)) its) w w (Ok its).
  Proof.
    intros its Hx Vx F. induction F as [|[k c] its (v & Fv & Hv) _ IH]; [apply ev_ret|]. cbn [mmap fst snd] in *.
    eapply ev_bind with (a := (k, c)); [eapply ev_bind; [eapply process_free; [exact Hv|exact Hx|rewrite Vx; exact Fv]|apply ev_ret]|]. eapply ev_bind; [exact IH|apply ev_ret].
  Qed.
  (** A reference node into a loaded document, to an object: it cannot be
      processed, whoever does it. *)
  Lemma process_ref w s x c r y f own tgt : nth_error (w_schemas w) s = Some x -> s_voc x = core -> val (w_heap w) c (PRef r) ->
    nth_error (w_schemas w) (r_schema r) = Some y -> s_ready y = true -> Runs (CQuery (r_schema r) (r_pointer r)) w w (Ok f) ->
    val (w_heap w) f (PObj tgt) -> val (w_heap w) (r_node r) (PObj own) ->
    Forall (fun ka => exists v, free v /\ holds (w_heap w) (snd ka) v) own -> Forall (fun ka => exists v, free v /\ holds (w_heap w) (snd ka) v) tgt ->
    Runs (CProcess s c) w w (Raise EAttr).
  Proof.
    intros Hx Vx Vr Hy Ry Q Vf Vo Fo Ft. apply ev_step. cbn [Doc.step]. unfold process. pose proof Vr as (n & Hn & En).
    assert (T : Runs (CType f) w w (Ok JObj)) by (apply (runs_type _ _ _ _ w f _ Vf eq_refl)).
    eapply ev_bind with (a := JObj). { apply ev_step. cbn [Doc.step]. unfold node_type. eapply ev_known; [apply node_at_ok, Hn|]. rewrite En. eapply ev_bind; [exact Q|exact T]. }
    set (merged := fold_left (fun acc kx => dset (fst kx) (snd kx) acc) tgt (fold_left (fun acc kx => dset (fst kx) (snd kx) acc) (filter (fun kx => negb (str_eqb (fst kx) (u "$ref"))) own) [])).
    eapply ev_bind with (a := merged).
    { unfold node_items at 1. eapply ev_known; [apply node_at_ok, Hn|]. rewrite En. eapply ev_bind with (a := RDict merged); [|apply ev_ret]. apply ev_step. cbn [Doc.step]. unfold ref_raw.
      eapply ev_known; [apply node_at_ok, Hn|]. rewrite En. eapply ev_known; [apply schema_at_ok, Hy|]. rewrite Ry. eapply ev_bind; [exact Q|]. eapply ev_bind; [exact T|].
      eapply ev_bind; [apply ev_pure; intro rec; apply (items_obj rec w _ _ Vo)|]. eapply ev_bind; [apply ev_pure; intro rec; apply (items_obj rec w _ _ Vf)|]. apply ev_ret. }
    eapply ev_bind with (a := merged).
    - apply (free_all w s x); [exact Hx|exact Vx|]. unfold merged.
      assert (K : forall (l acc : list (pystr * addr)), Forall (fun ka => exists v, free v /\ holds (w_heap w) (snd ka) v) l -> Forall (fun ka => exists v, free v /\ holds (w_heap w) (snd ka) v) acc ->
        Forall (fun ka => exists v, free v /\ holds (w_heap w) (snd ka) v) (fold_left (fun acc kx => dset (fst kx) (snd kx) acc) l acc)).
      { induction l as [|[k a] l IH]; intros acc Fl Fa; [exact Fa|]. inversion Fl; subst. cbn [fold_left]. apply IH; [assumption|].
        clear -H1 Fa. induction Fa as [|[k1 a1] acc H2 Fa IH]; cbn [dset fst snd]; [repeat constructor; exact H1|]. destruct (str_eqb k k1); constructor; assumption. }
      apply K; [exact Ft|]. apply K; [|constructor]. clear -Fo. induction Fo as [|[k a] own Ha Fo IH]; cbn [filter fst]; [constructor|]. destruct (negb _); [constructor|]; assumption.
    - eapply ev_known; [apply node_at_ok, Hn|]. rewrite En. apply ev_pure. reflexivity.
  Qed.
End Walk.

(** ** Loaded values *)
Section Retry.
  Variables (auth : pystr -> option authority) (dig : N -> option Z) (strx : heap -> addr -> pystr) (fetch : uri -> res pv).
  Notation Runs := (Runs auth dig strx fetch).
  Notation ev := (ev auth dig strx fetch).
  (** The first object with a keyword, members before their object, has a
      reference into the document. *)
  Inductive leads : pv -> Prop :=
  | lr_here d t v p : dget (u "$ref") d = Some (VStr t) -> local auth t v p -> leads (VDict d)
  | lr_member l k y m : free_items l -> k <> u "$anchor" -> leads y -> leads (VDict (l ++ (k, y) :: m)).

  Lemma ddel_out {A} k (d : list (pystr * A)) : ~ In k (dkeys d) -> ddel k d = d.
  Proof. induction d as [|[k1 x] d IH]; intro H; [reflexivity|]. cbn in *. destruct (str_eqb_spec k k1) as [->|]; [destruct H; auto|]. rewrite IH; [reflexivity|]. intro; apply H; auto. Qed.
  Lemma loaded_free h s v : forall a, free v -> loaded auth h s a v -> holds h a v.
  Proof.
    induction v as [v Hl Hd|l IH|d IH] using pv_ind_deep; intros a F L.
    - inversion L as [? ? ? H| |]; subst; [exact H| |]; exfalso; eapply Hd; reflexivity.
    - inversion L; assumption.
    - inversion F as [? C|? Fd]; subst; [exfalso; eapply C; reflexivity|].
      assert (NR : forall k, In k (triggers core) -> ~ In k (dkeys d)).
      { intros k Hk Hi. unfold dkeys in Hi. apply in_map_iff in Hi as ([k1 x1] & <- & Hi). rewrite Forall_forall in Fd. apply (Fd _ Hi). exact Hk. }
      inversion L as [? ? C|? ? its G V Fi|? ? b its t v p G]; subst; [exfalso; eapply C; reflexivity| |].
      + rewrite ddel_out in Fi by (apply NR; cbn; auto). eapply h_dict; [exact V|].
        clear -IH Fd Fi. revert its Fi. induction Fd as [|[k2 y] d [_ Hy] Fd IHd]; intros its Fi; inversion Fi as [|[k1 c] ? ? ? [E1 E2] Fi']; subst; constructor; inversion IH; subst; [split; [exact E1|]; cbn [snd] in *; auto|apply IHd; assumption].
      + exfalso. apply (NR (u "$ref")); [cbn; auto|]. apply dget_In in G. apply in_map_iff. eexists; split; [|exact G]. reflexivity.
  Qed.
  Lemma ddel_mid {A} k (l : list (pystr * A)) k1 y m : k1 <> k -> exists l' m', ddel k (l ++ (k1, y) :: m) = l' ++ (k1, y) :: m' /\ incl l' l.
  Proof.
    intro N. induction l as [|[k2 x] l IH]; cbn [app ddel].
    - destruct (str_eqb_spec k k1); [congruence|]. exists [], (ddel k m). split; [reflexivity|apply incl_refl].
    - destruct (str_eqb k k2); [exists l, m; split; [reflexivity|apply incl_tl, incl_refl]|]. destruct IH as (l' & m' & -> & I). exists ((k2, x) :: l'), m'. split; [reflexivity|].
      intros z [<-|Hz]; [left; reflexivity|right; apply I, Hz].
  Qed.
  Lemma loaded_leads h s v : leads v -> forall a, loaded auth h s a v -> exists c r, comes_to h a c /\ val h c (PRef r) /\ r_schema r = s.
  Proof.
    induction 1 as [d t v p G L|l k y m F Nk _ IH]; intros a Ld; inversion Ld as [? ? C|? ? its G' V Fi|? ? b its t' v' p' G' L' V]; subst;
      try (exfalso; eapply C; reflexivity); try congruence; try (do 2 eexists; split; [apply ct_here|split; [exact V|reflexivity]]).
    destruct (ddel_mid (u "$anchor") l k y m Nk) as (l' & m' & E & I). rewrite E in Fi. apply Forall2_app_inv_r in Fi as (i1 & i2 & F1 & F2 & ->).
    inversion F2 as [|[k1 c] ? i3 ? [E1 E2] F3]; subst. cbn [fst snd] in *. destruct (IH c E2) as (c' & r & Fr & Er). exists c', r. split; [|exact Er].
    assert (Fl : free_items l') by (apply Forall_forall; intros z Hz; unfold free_items in F; rewrite Forall_forall in F; apply F, I, Hz).
    eapply ct_member; [exact V|exact Fl| |exact Fr]. clear -F1 Fl. induction F1 as [|[k1 c] [k2 x] i1 l' [E1 E2] F1 IH1]; [constructor|]. inversion Fl; subst. constructor; [split; [exact E1|]; eapply loaded_free; eassumption|apply IH1; assumption].
  Qed.

  (** ** The first load *)
  Definition anchors_only (l : list deed) : Prop := Forall (fun e => exists t a, e = DAnchor t a) l.
  Lemma plan_anchored root v : forall a pth l, plan auth root a pth v l -> without [u "$id"; u "id"] v -> anchors_only l.
  Proof.
    induction v as [v Hl Hd|l0 IH|d IH] using pv_ind_deep; intros a pth l P W.
    - inversion P; subst; [constructor|exfalso; eapply Hd; reflexivity].
    - inversion P; constructor.
    - inversion P as [? ? ? C|? ? ? ls o Pls Ho]; subst; [constructor|]. inversion W as [? C|? Wd]; subst; [exfalso; eapply C; reflexivity|].
      apply Forall_app. split.
      + clear P Ho. revert ls Pls. generalize (S a). clear W. induction Wd as [|[k x] d [_ Wx] Wd IHd]; intros b ls Pls; inversion Pls as [|? ? ? ? ? ? l ls' Px Pd]; subst; [constructor|].
        inversion IH; subst. apply Forall_app. split; [eapply H1; eassumption|eapply IHd; eassumption].
      + assert (I : id_member d = None).
        { unfold id_member. destruct (dget (u "$id") d) eqn:E1; [|destruct (dget (u "id") d) eqn:E2; [|reflexivity]]; exfalso; [apply dget_In in E1|apply dget_In in E2]; rewrite Forall_forall in Wd.
          - apply (Wd _ E1). left. reflexivity.
          - apply (Wd _ E2). right. left. reflexivity. }
        destruct Ho as [|la li _ Ha Hi]; [constructor|]. apply Forall_app. split; [destruct Ha; repeat constructor; eauto|]. destruct Hi; try congruence. constructor.
  Qed.
  Lemma anchors_store s l : anchors_only l -> forall acc, snd (fold_left (done s) l acc) = snd acc.
  Proof. induction 1 as [|e l (t & a & ->) _ IH]; intros [ss st]; [reflexivity|]. cbn [fold_left done]. rewrite IH. reflexivity. Qed.

  Lemma wrap_items_app base d1 d2 : forall b, wrap_items base b (d1 ++ d2) =
    (fst (wrap_items base b d1) ++ fst (wrap_items base (after b (snd (wrap_items base b d1))) d2), snd (wrap_items base b d1) ++ snd (wrap_items base (after b (snd (wrap_items base b d1))) d2)).
  Proof.
    induction d1 as [|[k x] d1 IH]; intro b; cbn [app].
    - unfold after. cbn. rewrite Nat.add_0_r. destruct (wrap_items base b d2). reflexivity.
    - rewrite !wrap_items_cons. cbn [fst snd]. rewrite IH. cbn [fst snd]. unfold after. rewrite !app_length, !Nat.add_assoc, <- !app_assoc. reflexivity.
  Qed.
  Lemma items_held base d : forall h b, placed h b (snd (wrap_items base b d)) -> held h (fst (wrap_items base b d)) d.
  Proof.
    induction d as [|[k x] d IH]; intros h b P; [constructor|]. rewrite wrap_items_cons in *. cbn [fst snd] in *. apply placed_app in P as [P1 P2]. constructor; [split; [reflexivity|eapply wrap_holds, P1]|apply IH, P2].
  Qed.

  (** A member [P] without ids of a document has a reference into the document
      inside; a later member cannot be loaded. Then the load fails, and from then
      on loading never ends, also when what was missing can be fetched. *)
  Theorem C49_never w s w0 l k0 P mid kf F m d e : opened w (VDict (l ++ (k0, VDict P) :: mid ++ (kf, F) :: m)) s w0 ->
    free_items l -> free_items mid ->
    fit auth (id_of (VDict (l ++ (k0, VDict P) :: mid ++ (kf, F) :: m))) [k0] (VDict P) -> without [u "$id"; u "id"] (VDict P) -> leads (VDict P) -> dget (u "$ref") P = None ->
    comes_first F d -> unloadable auth fetch w d e ->
    exists w1, ev (fun rec => load rec s) w0 w1 (Raise e) /\ forall fetch' n, snd (load (exec auth dig strx fetch' n) s w1) = OutOfFuel.
  Proof.
    intros O Fl Fm Ft NI Ld NR Cf U. set (D := l ++ (k0, VDict P) :: mid ++ (kf, F) :: m) in *.
    destruct (opened_dict _ _ _ _ O) as (-> & Est & Ess & Eh). set (s := length (w_schemas w)) in *. set (r := length (w_heap w)) in *.
    assert (Hs : nth_error (w_schemas w0) s = Some (fresh r core)) by (rewrite Ess, nth_error_app2, Nat.sub_diag by (unfold s; lia); reflexivity).
    assert (Pl : placed (w_heap w0) r (wrap r None [] (VDict D))) by (rewrite Eh; apply placed_end).
    assert (Hr : holds (w_heap w0) r (VDict D)) by (eapply wrap_holds, Pl).
    rewrite wrap_dict in Pl. apply placed_cons in Pl as [Pr Pi]. set (its := fst (wrap_items r (S r) D)) in *.
    set (il := fst (wrap_items r (S r) l)). set (b := after (S r) (snd (wrap_items r (S r) l))). set (nP := wrap b (Some r) k0 (VDict P)).
    set (bm := after b nP). set (im := fst (wrap_items r bm mid)). set (bF := after bm (snd (wrap_items r bm mid))).
    set (nF := wrap bF (Some r) kf F).
    assert (Ei : its = il ++ (k0, b) :: im ++ (kf, bF) :: fst (wrap_items r (after bF nF) m)).
    { unfold its, D. rewrite wrap_items_app. cbn [fst]. rewrite wrap_items_cons. cbn [fst]. rewrite wrap_items_app. cbn [fst]. rewrite wrap_items_cons. reflexivity. }
    unfold D in Pi. rewrite wrap_items_app in Pi. cbn [snd] in Pi. rewrite wrap_items_cons in Pi. cbn [snd] in Pi. rewrite wrap_items_app in Pi. cbn [snd] in Pi. rewrite wrap_items_cons in Pi. cbn [snd] in Pi.
    apply placed_app in Pi as [Pil Pi]. apply placed_app in Pi as [PiP Pi]. apply placed_app in Pi as [Pim Pi]. apply placed_app in Pi as [PiF _].
    fold b in PiP, Pim, PiF. change (placed (w_heap w0) b nP) in PiP.
    assert (Lr : r < b) by (unfold b, after; lia).
    (* the member P *)
    assert (St : start s w0 b (Some r) [k0] (id_of (VDict D))).
    { destruct (placed_head _ _ _ _ _ PiP) as (nd & Hnd & Ep & Ek). split; [eexists; split; [exact Hs|split; reflexivity]|].
      split; [|exists r; split; [|split; [lia|split; [intros _; exact Lr|]]]].
      - cbn [keys_up]. rewrite Hnd, Ep, Ek. destruct b as [|b']; [lia|]. cbn [keys_up]. rewrite Pr. reflexivity.
      - cbn [root_up]. rewrite Hnd, Ep. destruct b as [|b']; [lia|]. cbn [root_up]. rewrite Pr. reflexivity.
      - inversion Hr as [| | | | | | |? ? its' V Fe]; subst. exists its'. split; [exact V|].
        assert (T : texts (w_heap w0) its' D) by (eapply Forall2_mono; [|exact Fe]; intros [k1 a1] [k2 x2] [E1 E2]; split; [exact E1|]; cbn [snd] in *; intros t ->; inversion E2; assumption).
        pose proof (texts_id _ _ _ T) as Ti. cbn [id_of]. destruct (id_member D) as [x|]; [|exact I]. destruct x; try exact I. exact Ti. }
    destruct (fit_plan auth _ _ b [k0] Ft) as [la Pla].
    destruct (process_value auth dig strx fetch s (VDict P) w0 b (Some r) k0 [k0] (id_of (VDict D)) la PiP St Pla) as (w1 & a1 & R1 & E1 & L1 & _).
    destruct (done_schema s la (w_schemas w0, w_store w0) _ Hs) as (x1 & Hx1 & Sx1 & Rx1 & Vx1). cbn [s_voc s_ready s_value fresh] in Vx1, Rx1, Sx1.
    pose proof (anchors_store s la (plan_anchored _ _ _ _ _ Pla NI) (w_schemas w0, w_store w0)) as Est1.
    rewrite <- (e_regs _ _ _ _ _ _ E1) in Hx1, Est1. cbn [fst snd] in Hx1, Est1.
    assert (K1 : loaded auth (w_heap w1) s b (VDict P)).
    { destruct (L1 (w_heap w1) (fun _ _ => eq_refl)) as (_ & K & _). eapply K; [apply sp_here|exact NR]. }
    assert (Lw : forall y n, hget (w_heap w0) y = Some n -> y < length (w_heap w0)) by (intros y n Hy; apply hget_lt in Hy; exact Hy).
    assert (Fr : forall y n, y < b \/ bm <= y -> hget (w_heap w0) y = Some n -> hget (w_heap w1) y = Some n).
    { intros y n Hy Hn. rewrite (e_frame _ _ _ _ _ _ E1); [exact Hn|eapply Lw, Hn|]. unfold bm, after, nP in Hy. lia. }
    assert (Pr1 : val (w_heap w1) r (PObj its)) by (eexists; split; [apply (Fr r _ (or_introl Lr) Pr)|reflexivity]).
    assert (Hl1 : held (w_heap w1) il l).
    { apply items_held. intros i n Hn. apply Fr; [left; unfold b, after; assert (i < length (snd (wrap_items r (S r) l))) by (apply nth_error_Some; congruence); lia|apply Pil, Hn]. }
    assert (Hm1 : held (w_heap w1) im mid).
    { apply items_held. eapply placed_mono; [|exact Pim]. intros y n Hy Hn. apply Fr; [right; exact Hy|exact Hn]. }
    assert (HF1 : holds (w_heap w1) bF F).
    { eapply wrap_holds, placed_mono; [|exact PiF]. intros y n Hy Hn. apply Fr; [right; unfold bF, after in Hy; lia|exact Hn]. }
    assert (U1 : unloadable auth fetch w1 d e).
    { destruct U as (t & v & p & bu & k & U). exists t, v, p, bu, k. rewrite Est1, Est. exact U. }
    exists w1. split.
    - unfold load. eapply ev_known; [apply schema_at_ok, Hs|]. cbn [s_ready fresh s_value]. eapply ev_bind_raise. apply ev_step. cbn [Doc.step]. unfold process.
      assert (V0 : val (w_heap w0) r (PObj its)) by (eexists; split; [exact Pr|reflexivity]).
      eapply ev_bind; [apply (runs_type _ _ _ _ w0 r _ V0 eq_refl)|]. cbn [kind_of]. eapply ev_bind; [apply ev_pure; intro rec; apply (items_obj rec w0 r its V0)|]. eapply ev_bind_raise. rewrite Ei.
      eapply free_then; [exact Hs|reflexivity|exact Fl|apply items_held, Pil|]. cbn [mmap fst snd].
      eapply ev_bind with (a := (k0, a1)); [eapply ev_bind; [exact R1|apply ev_ret]|]. eapply ev_bind_raise.
      eapply free_then; [exact Hx1|exact Vx1|exact Fm|exact Hm1|]. cbn [mmap fst snd]. eapply ev_bind_raise. eapply ev_bind_raise. eapply first_fails; eassumption.
    - intros fetch' n. destruct (loaded_leads _ _ _ Ld _ K1) as (c & rd & Frd & Vrd & Erd).
      eapply stuck; [exact Hx1|exact Vx1|exact Rx1| |exact Vrd|exact Erd]. rewrite Sx1. eapply ct_member; [rewrite <- Ei; exact Pr1|exact Fl|exact Hl1|exact Frd].
  Qed.

  (** ** A nested schema *)
  (** The first object with a keyword, members before their object, has the
      members [d], and objects around it have no reference. *)
  Inductive first_is (d : list (pystr * pv)) : pv -> Prop :=
  | fi_here : free_items d -> first_is d (VDict d)
  | fi_member l k y m : free_items l -> k <> u "$anchor" -> dget (u "$ref") (l ++ (k, y) :: m) = None -> first_is d y -> first_is d (VDict (l ++ (k, y) :: m)).
  Lemma loaded_items h s its d : Forall2 (fun ka kx => fst ka = fst kx /\ loaded auth h s (snd ka) (snd kx)) its d -> free_items d -> held h its d.
  Proof.
    intros F1 Fl. induction F1 as [|[k1 c] [k2 x] i1 l' [E1 E2] F1 IH1]; [constructor|]. inversion Fl; subst. constructor; [split; [exact E1|]; eapply loaded_free; eassumption|apply IH1; assumption].
  Qed.
  Lemma held_each h its d : held h its d -> free_items d -> Forall (fun ka => exists v, free v /\ holds h (snd ka) v) its.
  Proof. intros F Fl. induction F as [|[k1 c] [k2 x] its d [_ H] F IH]; [constructor|]. inversion Fl; subst. constructor; [exists x; auto|apply IH; assumption]. Qed.
  Lemma loaded_first h s d t v : dget (u "$ref") d = Some (VStr t) -> first_is d v -> forall a, loaded auth h s a v ->
    exists c b its uu p, comes_to h a c /\ val h c (PRef (RefData uu b s p)) /\ local auth t uu p /\ val h b (PObj its) /\ held h its d.
  Proof.
    intros G. induction 1 as [F|l k y m F Nk Nr _ IH]; intros a Ld; inversion Ld as [? ? C|? ? its G' V Fi|? ? b its t' v' p' G' L' V Vb Fi]; subst;
      try (exfalso; eapply C; reflexivity); try congruence.
    - assert (t' = t) as -> by congruence. exists a, b, its, v', p'. split; [apply ct_here|]. split; [exact V|]. split; [exact L'|]. split; [exact Vb|eapply loaded_items; eassumption].
    - destruct (ddel_mid (u "$anchor") l k y m Nk) as (l' & m' & E & I). rewrite E in Fi. apply Forall2_app_inv_r in Fi as (i1 & i2 & F1 & F2 & ->).
      inversion F2 as [|[k1 c] ? i3 ? [E1 E2] F3]; subst. cbn [fst snd] in *. destruct (IH c E2) as (c' & b & its & uu & p & Fr & Er). exists c', b, its, uu, p. split; [|exact Er].
      assert (Fl : free_items l') by (apply Forall_forall; intros z Hz; unfold free_items in F; rewrite Forall_forall in F; apply F, I, Hz).
      eapply ct_member; [exact V|exact Fl|eapply loaded_items; eassumption|exact Fr].
  Qed.
  (** A nested schema whose first keyword is a reference to an object of the outer
      document: once the outer document is loaded, every query through the id of
      the nested schema raises AttributeError, each time. *)
  Theorem C106_attr w v s w0 r q x k d e t uu p o : digits_ok dig -> fit_document auth v -> opened w v s w0 -> root_at w0 s r -> gives_id auth v q x -> key_of auth x = Ok k ->
    (forall q' y, gives_id auth v q' y -> key_of auth y = Ok k -> q' = q) -> inside v q (VDict e) -> first_is d (VDict e) ->
    dget (u "$ref") d = Some (VStr t) -> local auth t uu p -> location v p (false, VDict o) -> free (VDict o) ->
    exists w' n, ev (fun rec => load rec s) w0 w' (Ok tt) /\ dget k (w_store w') = Some n /\
      ev (fun rec => load rec n) w' w' (Raise EAttr) /\ forall p', Runs (CQuery n p') w' w' (Raise EAttr).
  Proof.
    intros Dg Ft O Rt Gi Kx Un Iq Fi Gd Lo Lp Fo.
    destruct (C50_nested auth dig strx fetch w v s w0 r q x k Ft O Rt Gi Kx Un) as (w' & b & n & L & W & D & Hn).
    destruct (C46_exact auth dig strx fetch w v s w0 Ft O) as (w1 & L1 & M1 & _). destruct (ev_det _ _ _ _ _ _ _ _ _ _ L1 L) as [-> _]. clear L1.
    destruct (M1 p _ (location_finds auth dig v p _ Dg Lp)) as (f & Qf & Sf). destruct Sf as [Lf _]. cbn [snd] in Lf. pose proof (loaded_free _ _ _ _ Fo Lf) as Hf.
    inversion Hf as [| | | | | | |? ? tgt Vf Ff]; subst.
    destruct Ft as ((d0 & ->) & Ds & Ft). destruct Rt as (x0 & Hx0 & Er). destruct (opened_dict _ _ _ _ O) as (Es & Est & Ess & Eh).
    assert (r = length (w_heap w)) as ->. { subst s. rewrite Ess, nth_error_app2, Nat.sub_diag in Hx0 by lia. injection Hx0 as <-. cbn in Er. auto. }
    destruct (fit_plan auth (id_of (VDict d0)) (VDict d0) (length (w_heap w)) [] Ft) as [l Pl].
    destruct (load_document auth dig strx fetch w d0 s w0 l O Pl) as (w1 & x1 & L1 & Hs1 & Rs1 & Vs1 & _ & _ & _ & _ & Kp).
    destruct (ev_det _ _ _ _ _ _ _ _ _ _ L1 L) as [-> _]. clear L1.
    destruct (inside_spot _ _ _ Iq (length (w_heap w))) as [b' Sp].
    assert (P0 : placed (w_heap w0) (length (w_heap w)) (wrap (length (w_heap w)) None [] (VDict d0))) by (rewrite Eh; apply placed_end).
    assert (b' = b) as -> by (symmetry; eapply spot_only; eassumption).
    assert (Ne : dget (u "$ref") e = None). { destruct Gi as (d' & t' & Iq' & Nr & _). pose proof (inside_unique _ _ _ Iq _ Iq') as E. injection E as ->. exact Nr. }
    pose proof (Kp q b e Sp Ne) as Lb. destruct (loaded_first _ _ d t _ Gd Fi _ Lb) as (c & bb & its & u2 & p2 & Ct & Vc & Lo2 & Vb & Hb).
    assert (p2 = p) as ->. { destruct Lo as (A1 & A2 & _), Lo2 as (B1 & B2 & _). congruence. }
    assert (Fd : free_items d). { clear -Fi. induction Fi; assumption. }
    assert (Fo' : free_items o). { inversion Fo as [? C|? F]; subst; [exfalso; eapply C; reflexivity|]. eapply Forall_impl; [|exact F]. intros z [_ Hz]. exact Hz. }
    assert (Pc : Runs (CProcess n c) w' w' (Raise EAttr)).
    { eapply process_ref; [exact Hn|reflexivity|exact Vc|exact Hs1|exact Rs1|exact Qf|exact Vf|exact Vb|eapply held_each; eassumption|eapply held_each; eassumption]. }
    assert (Ld : ev (fun rec => load rec n) w' w' (Raise EAttr)).
    { unfold load. eapply ev_known; [apply schema_at_ok, Hn|]. cbn [s_ready s_value]. eapply ev_bind_raise. eapply comes_raises; [exact Hn|reflexivity|exact Ct|exact Pc]. }
    exists w', n. split; [exact L|]. split; [exact D|]. split; [exact Ld|]. intro p'. apply ev_step. cbn [Doc.step]. unfold query. eapply ev_bind_raise. exact Ld.
  Qed.
End Retry.

(** ** A case *)
(** [C49_never] with members before, between and after; the reference is two
    levels down, beside an anchor *)
Definition retry_before : list (pystr * pv) := [(u "type", VStr (u "object")); (u "limits", VDict [(u "minimum", VInt 1)])].
Definition retry_member : list (pystr * pv) := [(u "p", VDict [(u "title", VStr (u "t")); (u "q", VDict [(u "$ref", VStr (u "#/limits"))]); (u "$anchor", VStr (u "here"))]); (u "z", VDict [(u "$ref", VStr (u "#/here"))])].
Definition retry_between : list (pystr * pv) := [(u "c", VInt 3)].
Definition retry_after : list (pystr * pv) := [(u "w", VDict [(u "$ref", VInt 4)])].
Definition retry_fails : list (pystr * pv) := [(u "$ref", VStr (u "other.json"))].
Example C49_never_some : exists w0, opened (World [] [] []) (VDict (retry_before ++ (u "defs", VDict retry_member) :: retry_between ++ (u "y", VDict [(u "i", VDict retry_fails)]) :: retry_after)) 0 w0 /\
  free_items retry_before /\ free_items retry_between /\
  fit toy (id_of (VDict (retry_before ++ (u "defs", VDict retry_member) :: retry_between ++ (u "y", VDict [(u "i", VDict retry_fails)]) :: retry_after))) [u "defs"] (VDict retry_member) /\
  without [u "$id"; u "id"] (VDict retry_member) /\ leads toy (VDict retry_member) /\ dget (u "$ref") retry_member = None /\
  comes_first (VDict [(u "i", VDict retry_fails)]) retry_fails /\ unloadable toy missing (World [] [] []) retry_fails ELoad.
Proof.
  assert (W : forall names v, (fix ok (v : pv) : bool := match v with VDict d => forallb (fun kx => negb (existsb (str_eqb (fst kx)) names) && ok (snd kx)) d | _ => true end) v = true -> without names v).
  { intros names v. induction v as [v Hl Hd|l IH|d IH] using pv_ind_deep; intro H; [apply wo_leaf; exact Hd|apply wo_leaf; discriminate|]. apply wo_dict. induction IH as [|[k x] d Hx _ IHd]; [constructor|].
    cbn [forallb fst snd] in H. apply andb_prop in H as [H1 H2]. apply andb_prop in H1 as [H0 H1]. constructor; [|apply IHd, H2]. cbn [fst snd] in *. split; [|apply Hx, H1].
    intro C. apply negb_true_iff in H0. assert (existsb (str_eqb k) names = true) by (apply existsb_exists; exists k; split; [exact C|destruct (str_eqb_spec k k); [reflexivity|congruence]]). congruence. }
  assert (Wd : forall d, forallb (fun kx => (fix ok (v : pv) : bool := match v with VDict d => forallb (fun kx => negb (existsb (str_eqb (fst kx)) (triggers core)) && ok (snd kx)) d | _ => true end) (snd kx)) d = true -> free_items d).
  { intros d H. apply Forall_forall. intros x Hx. apply W. rewrite forallb_forall in H. apply (H x Hx). }
  eexists. split; [reflexivity|]. split; [apply Wd; vm_compute; reflexivity|]. split; [apply Wd; vm_compute; reflexivity|].
  split; [|split; [apply W; vm_compute; reflexivity|split; [|split; [reflexivity|split]]]].
  - assert (L : exists v p, local toy (u "#/limits") v p) by (apply localb_ok; vm_compute; reflexivity). destruct L as (v & p & L).
    assert (L' : exists v p, local toy (u "#/here") v p) by (apply localb_ok; vm_compute; reflexivity). destruct L' as (v' & p' & L').
    apply fit_dict; [right; repeat split; left; reflexivity|]. constructor; [|constructor; [|constructor]].
    + apply fit_dict; [right; split; [reflexivity|split; [right; eexists; reflexivity|left; reflexivity]]|]. constructor; [apply fit_leaf; discriminate|constructor; [|constructor; [apply fit_leaf; discriminate|constructor]]].
      apply fit_dict; [left; exists (u "#/limits"), v, p; repeat split; try reflexivity; apply L|]. constructor; [apply fit_leaf; discriminate|constructor].
    + apply fit_dict; [left; exists (u "#/here"), v', p'; repeat split; try reflexivity; apply L'|]. constructor; [apply fit_leaf; discriminate|constructor].
  - assert (L : exists v p, local toy (u "#/limits") v p) by (apply localb_ok; vm_compute; reflexivity). destruct L as (v & p & L).
    apply (lr_member toy [] (u "p")); [constructor|discriminate|]. apply (lr_member toy [(u "title", VStr (u "t"))] (u "q")); [apply Wd; vm_compute; reflexivity|discriminate|]. eapply lr_here; [reflexivity|exact L].
  - apply (cf_member [] (u "i")); [constructor|]. apply cf_here. apply (Wd retry_fails). vm_compute. reflexivity.
  - do 5 eexists. split; [reflexivity|]. split; [vm_compute; reflexivity|]. split; [vm_compute; reflexivity|]. split; [vm_compute; reflexivity|]. split; [reflexivity|]. split; [vm_compute; reflexivity|]. split; [reflexivity|]. right. split; reflexivity.
Qed.
(** [C106_attr]: the schema at "/defs/x" of [C106_value] *)
Fixpoint objects (v : pv) : list (list pystr * list (pystr * pv)) :=
  match v with
  | VDict d => ([], d) :: (fix go (d : list (pystr * pv)) := match d with [] => [] | (k, x) :: d' => map (fun qd => (k :: fst qd, snd qd)) (objects x) ++ go d' end) d
  | _ => []
  end.
Lemma inside_objects v q y : inside v q y -> forall d, y = VDict d -> In (q, d) (objects v).
Proof.
  induction 1 as [v|d0 k x p y G _ IH]; intros d ->; [left; reflexivity|]. right. specialize (IH d eq_refl).
  induction d0 as [|[k1 x1] d0 IHd]; [discriminate|]. cbn [dget] in G. apply in_app_iff. destruct (str_eqb_spec k k1) as [->|]; [injection G as ->; left; apply in_map_iff; eexists; split; [|exact IH]; reflexivity|right; apply IHd, G].
Qed.
Example C106_attr_some : exists w0 x d e uu p o, digits_ok ex_dig /\ fit_document toy C106_value /\ opened (World [] [] []) C106_value 0 w0 /\ root_at w0 0 0 /\
  gives_id toy C106_value [u "defs"; u "x"] x /\ key_of toy x = Ok (u "http://h/t") /\
  (forall q' y, gives_id toy C106_value q' y -> key_of toy y = Ok (u "http://h/t") -> q' = [u "defs"; u "x"]) /\
  inside C106_value [u "defs"; u "x"] (VDict e) /\ first_is d (VDict e) /\ dget (u "$ref") d = Some (VStr (u "#/defs/y")) /\ local toy (u "#/defs/y") uu p /\
  location C106_value p (false, VDict o) /\ free (VDict o).
Proof.
  destruct (C106_ids (u "t") (or_introl eq_refl)) as (x & Gx & Kx). cbn in Gx.
  assert (L : exists v p, local toy (u "#/defs/y") v p) by (apply localb_ok; vm_compute; reflexivity). destruct L as (uu & p & L).
  assert (p = [u "defs"; u "y"]) as ->. { destruct L as (L1 & L2 & _). vm_compute in L1. injection L1 as <-. vm_compute in L2. injection L2 as <-. reflexivity. }
  eexists. exists x. do 2 eexists. exists uu, [u "defs"; u "y"]. eexists. split; [exact ex_dig_ok|]. split; [exact C106_fit|]. split; [vm_compute; reflexivity|]. split; [eexists; split; reflexivity|].
  split; [exact Gx|]. split; [exact Kx|]. split.
  - intros q' y (d & t & I & _ & It & Nq & _ & Nm) Ky. apply inside_objects with (d := d) in I; [|reflexivity]. vm_compute in I.
    repeat (destruct I as [I|I]; [injection I as <- <-; try (exfalso; apply Nq; reflexivity); try discriminate It; try reflexivity|]); [|destruct I].
    vm_compute in It. injection It as <-. assert (E : y = match name_of toy (id_of C106_value) (u "http://h/z") with Ok z => z | _ => y end) by (eapply named_unique; [exact Nm|]; apply name_of_ok; vm_compute; reflexivity).
    rewrite E in Ky. vm_compute in Ky. discriminate.
  - split; [do 2 (eapply in_member; [reflexivity|]); apply in_here|]. split.
    + eapply (fi_member _ [(u "$id", VStr (u "http://h/t"))] (u "items")); [repeat constructor; discriminate|discriminate|reflexivity|]. apply fi_here. repeat constructor. discriminate.
    + split; [reflexivity|]. split; [exact L|]. split.
      * split; [discriminate|]. split; [discriminate|]. eapply pl_member; [right; split; [reflexivity|discriminate]|reflexivity|]. eapply pl_member; [right; split; [reflexivity|discriminate]|reflexivity|]. apply pl_here.
      * apply wo_dict. repeat constructor; [|discriminate]. cbn. intros C. repeat destruct C as [C|C]; try discriminate C. destruct C.
Qed.
