(** Loading a freshly made document. *)
From Verif Require Import PyBase PyBaseFacts PyVal OrderFacts Regex Numbers Uri Pointer Store Validators Heap HeapFacts PropsWrap PropsPlaces Doc DocMono DocFacts PropsQuery DocLoad.
Local Open Scope nat_scope.
Local Notation length := List.length (only parsing).

Section Fit.
  Variable auth : pystr -> option authority.
  (** An id that can be used, in an object at path [pth] of a document whose
      root has id [root]: none, or one inside an "enum", or a URI that is absolute
      or can be made so. *)
  Definition fit_id (root : option pystr) (pth : list pystr) (d : list (pystr * pv)) : Prop :=
    id_member d = None \/ exists t, id_member d = Some (VStr t) /\
      ((pth <> [] /\ In (u "enum") pth /\ exists v, mk_uri auth t = Ok v /\ u_frag v = []) \/
       (pth <> [] /\ ~ In (u "enum") pth /\ exists v k, named auth root t v /\ key_of auth v = Ok k) \/
       (pth = [] /\ exists v k, mk_uri auth t = Ok v /\ u_frag v = [] /\ is_absolute auth v = Ok true /\ key_of auth v = Ok k)).
  (** An object with a local reference and no anchor or id, or without reference
      and with usable anchor and id, if any. *)
  Definition fit_object (root : option pystr) (pth : list pystr) (d : list (pystr * pv)) : Prop :=
    (exists t v p, dget (u "$ref") d = Some (VStr t) /\ local auth t v p /\ dget (u "$anchor") d = None /\ id_member d = None) \/
    (dget (u "$ref") d = None /\ (dget (u "$anchor") d = None \/ exists t, dget (u "$anchor") d = Some (VStr t)) /\ fit_id root pth d).
  (** all objects outside arrays *)
  Inductive fit (root : option pystr) : list pystr -> pv -> Prop :=
  | fit_leaf pth v : (forall d, v <> VDict d) -> fit root pth v
  | fit_dict pth d : fit_object root pth d -> Forall (fun kx => fit root (pth ++ [fst kx]) (snd kx)) d -> fit root pth (VDict d).
  (** the id of a document with this value *)
  Definition id_of (v : pv) : option pystr :=
    match v with VDict d => match id_member d with Some (VStr t) => Some t | _ => None end | _ => None end.
  Definition fit_document (v : pv) : Prop := (exists d, v = VDict d) /\ distinct v /\ fit (id_of v) [] v.

  Lemma fit_own root a pth d : fit_object root pth d -> exists o, own auth root a pth d o.
  Proof.
    intros [(t & v & p & E1 & L & E2 & E3)|(E1 & A & I)].
    - exists []. eapply own_ref; eassumption.
    - assert (exists la, own_anchor a d la) as [la Ha] by (destruct A as [A|[t A]]; eexists; [apply oa_none, A|eapply oa_some, A]).
      assert (exists li, own_id auth root a pth d li) as [li Hi].
      { destruct I as [I|(t & I & [(N & E & v & Hv & Hf)|[(N & E & v & k & Hn & Hk)|(E & v & k & Hv & Hf & Ha' & Hk)]])]; eexists; [apply oi_none|eapply oi_enum|eapply oi_reg|eapply oi_root]; eauto. }
      exists (la ++ li). eapply own_plain; eassumption.
  Qed.
  Lemma fit_plan root v : forall a pth, fit root pth v -> exists l, plan auth root a pth v l.
  Proof.
    induction v as [v Hl Hd|l IH|d IH] using pv_ind_deep; intros a pth F.
    - exists []. apply plan_leaf. exact Hd.
    - exists []. apply plan_leaf. discriminate.
    - inversion F as [? ? C|? ? Fo Fd]; subst; [exfalso; eapply C; reflexivity|].
      assert (K : forall b, exists ls, plans auth root a b pth d ls).
      { clear F Fo. induction Fd as [|[k x] d Fx Fd IHd]; intro b; [exists []; constructor|]. inversion IH as [|? ? I1 I2]; subst. cbn [fst snd] in *.
        destruct (I1 b (pth ++ [k]) Fx) as [l Hl]. destruct (IHd I2 (after b (wrap b (Some a) k x))) as [ls Hls]. exists (l ++ ls). constructor; assumption. }
      destruct (K (S a)) as [ls Hls]. destruct (fit_own root a pth d Fo) as [o Ho]. exists (ls ++ o). constructor; assumption.
  Qed.
End Fit.

(** [x] is at path [q] of [v], through objects only *)
Inductive inside : pv -> list pystr -> pv -> Prop :=
| in_here v : inside v [] v
| in_member d k x p y : dget k d = Some x -> inside x p y -> inside (VDict d) (k :: p) y.
Lemma inside_at v q x : inside v q x -> at_path v q x.
Proof. induction 1; econstructor; eauto. Qed.

Section Document.
  Variables (auth : pystr -> option authority) (dig : N -> option Z) (strx : heap -> addr -> pystr) (fetch : uri -> res pv).
  Notation Runs := (Runs auth dig strx fetch).
  Notation ev := (ev auth dig strx fetch).
  (** [JsonSchema(v, CORE_VOCABULARY + ...)] in world [w] *)
  Definition opened (w : world) (v : pv) (s : nat) (w0 : world) : Prop := make_schema v core w = (w0, Ok s).
  Definition root_at (w0 : world) (s : nat) (r : addr) : Prop := exists x, nth_error (w_schemas w0) s = Some x /\ s_value x = r.

  Lemma opened_dict w d s w0 : opened w (VDict d) s w0 ->
    s = length (w_schemas w) /\ w_store w0 = w_store w /\ w_schemas w0 = w_schemas w ++ [fresh (length (w_heap w)) core] /\
    w_heap w0 = w_heap w ++ wrap (length (w_heap w)) None [] (VDict d).
  Proof. unfold opened, make_schema, mbind, wrap_new, new, add_schema. intros [= <- <-]. cbn. auto. Qed.

  (** ** The whole load *)
  Lemma load_document_full w d s w0 l : opened w (VDict d) s w0 -> plan auth (id_of (VDict d)) (length (w_heap w)) [] (VDict d) l ->
    exists w' x', ev (fun rec => load rec s) w0 w' (Ok tt) /\
      nth_error (w_schemas w') s = Some x' /\ s_ready x' = true /\ s_voc x' = core /\ loaded auth (w_heap w') s (s_value x') (VDict d) /\
      same_links (w_heap w0) (w_heap w') /\ (forall y, y < length (w_heap w) -> hget (w_heap w') y = hget (w_heap w0) y) /\
      (exists ss, fold_left (done s) l (w_schemas w0, w_store w0) = (ss, w_store w') /\ w_schemas w' = upd ss s (fun y => Schema (s_value x') true core (s_anchors y) (s_id y))) /\
      kept auth s (w_heap w') (length (w_heap w)) (VDict d) /\
      still (w_heap w0) (w_heap w') (length (w_heap w)) (VDict d) /\ (forall y its, val (w_heap w0) y (PObj its) -> exists its', val (w_heap w') y (PObj its')) /\
      (forall y t, val (w_heap w0) y (PStr t) -> val (w_heap w') y (PStr t)).
  Proof.
    intros O P. destruct (opened_dict _ _ _ _ O) as (-> & Es & Ess & Eh). set (s := length (w_schemas w)) in *. set (r := length (w_heap w)) in *.
    assert (Hs : nth_error (w_schemas w0) s = Some (fresh r core)) by (rewrite Ess, nth_error_app2, Nat.sub_diag by (unfold s; lia); reflexivity).
    assert (Pl : placed (w_heap w0) r (wrap r None [] (VDict d))) by (rewrite Eh; apply placed_end).
    destruct (placed_head _ _ _ _ _ Pl) as (n & Hn & Ep & Ek).
    assert (St : start s w0 r None [] (id_of (VDict d))).
    { split; [eexists; split; [exact Hs|split; reflexivity]|]. split; [cbn [keys_up]; rewrite Hn, Ep; reflexivity|].
      exists r. split; [cbn [root_up]; rewrite Hn, Ep; reflexivity|]. split; [lia|]. split; [congruence|].
      pose proof (wrap_holds _ _ _ _ _ Pl) as H. inversion H as [| | | | | | |? ? its V F]; subst. exists its. split; [exact V|].
      assert (T : texts (w_heap w0) its d) by (eapply Forall2_mono; [|exact F]; intros [k1 a1] [k2 x2] [E1 E2]; split; [exact E1|]; cbn [snd] in *; intros t ->; inversion E2; assumption).
      pose proof (texts_id _ _ _ T) as Ti. cbn [id_of]. destruct (id_member d) as [x|]; [|exact I]. destruct x; try exact I. exact Ti. }
    destruct (process_value auth dig strx fetch s (VDict d) w0 r None [] [] (id_of (VDict d)) l Pl St P) as (w1 & a1 & R1 & E1 & L1 & _).
    destruct (done_schema s l (w_schemas w0, w_store w0) _ Hs) as (x1 & Hx1 & _ & _ & Vx1). cbn [s_voc fresh] in Vx1.
    rewrite <- (e_regs _ _ _ _ _ _ E1) in Hx1. cbn [fst] in Hx1.
    set (x' := Schema a1 true (s_voc x1) (s_anchors x1) (s_id x1)).
    exists (World (w_heap w1) (lput (w_schemas w1) s x') (w_store w1)), x'. cbn [w_schemas w_heap w_store].
    split; [|split; [|split; [|split; [|split; [|split; [|split; [|split; [|split; [|split; [|split]]]]]]]]]].
    - unfold load. eapply ev_known; [apply schema_at_ok, Hs|]. cbn [s_ready fresh s_value]. eapply ev_bind; [exact R1|]. eapply ev_known; [apply schema_at_ok, Hx1|]. apply ev_pure. reflexivity.
    - rewrite nth_lput, Nat.eqb_refl, Hx1. reflexivity.
    - reflexivity.
    - exact Vx1.
    - cbn [s_value x']. apply (L1 (w_heap w1)). reflexivity.
    - exact (e_link _ _ _ _ _ _ E1).
    - intros y Ly. apply (e_frame _ _ _ _ _ _ E1); [rewrite Eh, app_length; lia|unfold r; lia].
    - exists (w_schemas w1). split; [symmetry; exact (e_regs _ _ _ _ _ _ E1)|]. unfold upd. rewrite Hx1. unfold x'. rewrite Vx1. reflexivity.
    - apply (L1 (w_heap w1)). reflexivity.
    - apply (L1 (w_heap w1)). reflexivity.
    - exact (e_obj _ _ _ _ _ _ E1).
    - exact (e_str _ _ _ _ _ _ E1).
  Qed.
  Lemma load_document w d s w0 l : opened w (VDict d) s w0 -> plan auth (id_of (VDict d)) (length (w_heap w)) [] (VDict d) l ->
    exists w' x', ev (fun rec => load rec s) w0 w' (Ok tt) /\
      nth_error (w_schemas w') s = Some x' /\ s_ready x' = true /\ s_voc x' = core /\ loaded auth (w_heap w') s (s_value x') (VDict d) /\
      same_links (w_heap w0) (w_heap w') /\ (forall y, y < length (w_heap w) -> hget (w_heap w') y = hget (w_heap w0) y) /\
      (exists ss, fold_left (done s) l (w_schemas w0, w_store w0) = (ss, w_store w') /\ w_schemas w' = upd ss s (fun y => Schema (s_value x') true core (s_anchors y) (s_id y))) /\
      kept auth s (w_heap w') (length (w_heap w)) (VDict d).
  Proof. intros O P. destruct (load_document_full w d s w0 l O P) as (w' & x' & H1 & H2 & H3 & H4 & H5 & H6 & H7 & H8 & H9 & _). exists w', x'. auto 12. Qed.
End Document.

(** ** What the deeds are *)
Lemma spot_walk h v : forall base par key q b y, placed h base (wrap base par key v) -> spot base v q b y -> walk h base q b /\ holds h b y.
Proof.
  induction v as [v Hl Hd|l IH|d IH] using pv_ind_deep; intros base par key q b y P Sp.
  1,2: pose proof (wrap_holds _ _ _ _ _ P) as H; inversion Sp; subst; try (exfalso; eapply Hd; reflexivity); split; [apply w_here|exact H].
  pose proof (wrap_holds _ _ _ _ _ P) as H. inversion Sp as [|? ? k c x q' ? ? G1 G2 Sp']; subst; [split; [apply w_here|exact H]|].
  rewrite wrap_dict in P. apply placed_cons in P as [P1 P2].
  assert (K : forall b0, placed h b0 (snd (wrap_items base b0 d)) -> dget k (fst (wrap_items base b0 d)) = Some c -> walk h c q' b /\ holds h b y).
  { clear P1 P2 H G1 Sp. induction IH as [|[k1 x1] d I1 _ IHd]; intros b0 P G1; [discriminate|]. rewrite wrap_items_cons in *. cbn [fst snd dget] in *. apply placed_app in P as [Pa Pb].
    destruct (str_eqb k k1); [injection G1 as <-; injection G2 as ->; eapply I1; eassumption|]. eapply IHd; eassumption. }
  destruct (K _ P2 G1) as [K1 K2]. split; [|exact K2]. eapply w_member; [eexists; split; [exact P1|reflexivity]|exact G1|exact K1].
Qed.
Lemma wrap_items_get base d k x : dget k d = Some x -> forall b, exists c, dget k (fst (wrap_items base b d)) = Some c.
Proof.
  induction d as [|[k1 x1] d IH]; intros G b; [discriminate|]. rewrite wrap_items_cons. cbn [fst dget] in *. destruct (str_eqb k k1); [eauto|apply IH, G].
Qed.
Lemma inside_spot v q y : inside v q y -> forall base, exists b, spot base v q b y.
Proof.
  induction 1 as [v|d k x p y G _ IH]; intro base; [exists base; constructor|]. destruct (wrap_items_get base d k x G (S base)) as [c Hc]. destruct (IH c) as [b Hb]. exists b. eapply sp_member; eassumption.
Qed.
Lemma spot_inside base v q b y : spot base v q b y -> inside v q y.
Proof. induction 1; econstructor; eauto. Qed.

Section Deeds.
  Variables (auth : pystr -> option authority) (root : option pystr).
  Variables (e : deed) (P : addr -> list pystr -> pv -> Prop).
  Lemma plans_in d : Forall (fun kx => forall a pth l, plan auth root a pth (snd kx) l -> (In e l <-> P a pth (snd kx))) d -> NoDup (dkeys d) ->
    forall a b pth ls, plans auth root a b pth d ls ->
    (In e ls <-> exists k c x, dget k (fst (wrap_items a b d)) = Some c /\ dget k d = Some x /\ P c (pth ++ [k]) x).
  Proof.
    induction 1 as [|[k x] d Hx _ IH]; intros Nd a b pth ls Pl.
    - inversion Pl; subst. split; [intros []|]. intros (k & c & x & C & _). discriminate.
    - inversion Pl as [|? ? ? ? ? ? l ls' Pv Pd]; subst. inversion Nd as [|? ? N1 N2]; subst. rewrite in_app_iff, (Hx _ _ _ Pv), (IH N2 _ _ _ _ Pd). rewrite wrap_items_cons. cbn [fst snd dget].
      assert (Fr : forall k0, k0 <> k -> str_eqb k0 k = false) by (intros k0 N; destruct (str_eqb_spec k0 k); congruence).
      split.
      + intros [H|(k0 & c & x0 & G1 & G2 & H)].
        * exists k, b, x. rewrite str_eqb_refl. auto.
        * exists k0, c, x0. rewrite (Fr k0); [auto|]. intros ->. apply N1. apply dget_In in G2. apply (in_map fst) in G2. exact G2.
      + intros (k0 & c & x0 & G1 & G2 & H). destruct (str_eqb_spec k0 k) as [->|]; [injection G1 as <-; injection G2 as <-; auto|]. right. exists k0, c, x0. auto.
  Qed.
End Deeds.

Section DeedsIn.
  Variables (auth : pystr -> option authority) (root : option pystr).
  Lemma distinct_member d k x : distinct (VDict d) -> dget k d = Some x -> distinct x.
  Proof. intros D G. inversion D as [? _ C|?|? _ F]; subst; [exfalso; eapply C; reflexivity|]. rewrite Forall_forall in F. apply (F (k, x)), dget_In, G. Qed.
  (** the anchors declared *)
  Definition anchors_at (n : pystr) (b : addr) (a : addr) (pth : list pystr) (v : pv) : Prop :=
    exists q dd, spot a v q b (VDict dd) /\ dget (u "$ref") dd = None /\ dget (u "$anchor") dd = Some (VStr n).
  Lemma plan_anchors n b v : distinct v -> forall a pth l, plan auth root a pth v l -> (In (DAnchor n b) l <-> anchors_at n b a pth v).
  Proof.
    induction v as [v Hl Hd|l IH|d IH] using pv_ind_deep; intros D a pth l0 Pl.
    - inversion Pl; subst; [|exfalso; eapply Hd; reflexivity]. split; [intros []|]; intros (q & dd & Sp & _); inversion Sp; subst; exfalso; eapply Hd; reflexivity.
    - inversion Pl; subst. split; [intros []|]. intros (q & dd & Sp & _). inversion Sp.
    - inversion Pl as [? ? ? C|? ? ? ls o Pls Ho]; subst; [exfalso; eapply C; reflexivity|].
      inversion D as [? _ C|?|? Nd Fd]; subst; [exfalso; eapply C; reflexivity|].
      rewrite in_app_iff, (plans_in auth root (DAnchor n b) (anchors_at n b) d) with (a := a) (b := S a) (pth := pth) (ls := ls); [|clear -IH Fd; rewrite Forall_forall in *; intros kx Hk a0 pth0 l1 Pl1; apply IH; auto|exact Nd|exact Pls].
      split.
      + intros [(k & c & x & G1 & G2 & q & dd & Sp & N & A)|H].
        * exists (k :: q), dd. split; [eapply sp_member; eassumption|auto].
        * inversion Ho as [? ? ? E1 L E2 E3|la li E1 Oa Oi]; subst; [destruct H|]. apply in_app_iff in H as [H|H].
          -- inversion Oa as [C|t A]; subst; [destruct H|]. destruct H as [[= <- <-]|[]]. exists [], d. split; [constructor|auto].
          -- inversion Oi; subst; cbn in H; intuition discriminate.
      + intros (q & dd & Sp & N & A). inversion Sp as [|? ? k c x q' ? ? G1 G2 Sp']; subst.
        * right. inversion Ho as [? ? ? E1 L E2 E3|la li E1 Oa Oi]; subst; [congruence|]. apply in_or_app. left. inversion Oa as [C|t A']; subst; [congruence|]. rewrite A in A'. injection A' as <-. left. reflexivity.
        * left. exists k, c, x. split; [exact G1|]. split; [exact G2|]. exists q', dd. auto.
  Qed.
  (** the nested documents registered *)
  Definition regs_at (k : pystr) (v : uri) (b : addr) (a : addr) (pth : list pystr) (x : pv) : Prop :=
    exists q dd t, spot a x q b (VDict dd) /\ dget (u "$ref") dd = None /\ id_member dd = Some (VStr t) /\ pth ++ q <> [] /\ ~ In (u "enum") (pth ++ q) /\ named auth root t v /\ key_of auth v = Ok k.
  Lemma named_unique t v v' : named auth root t v -> named auth root t v' -> v = v'.
  Proof. intros H H'. inversion H; inversion H'; subst; congruence. Qed.
  Lemma plan_regs k0 v0 b v : distinct v -> forall a pth l, plan auth root a pth v l -> (In (DReg k0 v0 b) l <-> regs_at k0 v0 b a pth v).
  Proof.
    induction v as [v Hl Hd|l IH|d IH] using pv_ind_deep; intros D a pth l0 Pl.
    - inversion Pl; subst; [|exfalso; eapply Hd; reflexivity]. split; [intros []|]; intros (q & dd & t & Sp & _); inversion Sp; subst; exfalso; eapply Hd; reflexivity.
    - inversion Pl; subst. split; [intros []|]. intros (q & dd & t & Sp & _). inversion Sp.
    - inversion Pl as [? ? ? C|? ? ? ls o Pls Ho]; subst; [exfalso; eapply C; reflexivity|].
      inversion D as [? _ C|?|? Nd Fd]; subst; [exfalso; eapply C; reflexivity|].
      rewrite in_app_iff, (plans_in auth root (DReg k0 v0 b) (regs_at k0 v0 b) d) with (a := a) (b := S a) (pth := pth) (ls := ls); [|clear -IH Fd; rewrite Forall_forall in *; intros kx Hk a0 pth0 l1 Pl1; apply IH; auto|exact Nd|exact Pls].
      split.
      + intros [(k & c & x & G1 & G2 & q & dd & t & Sp & N & A & Np & Ne & Nm & Kk)|H].
        * exists (k :: q), dd, t. rewrite <- app_assoc in Np, Ne. split; [eapply sp_member; eassumption|auto 10].
        * inversion Ho as [? ? ? E1 L E2 E3|la li E1 Oa Oi]; subst; [destruct H|]. apply in_app_iff in H as [H|H].
          -- inversion Oa; subst; cbn in H; intuition discriminate.
          -- inversion Oi; subst; cbn in H; try (intuition discriminate). destruct H as [[= -> -> ->]|[]]. exists [], d, t. rewrite app_nil_r. split; [constructor|auto 10].
      + intros (q & dd & t & Sp & N & A & Np & Ne & Nm & Kk). inversion Sp as [|? ? k c x q' ? ? G1 G2 Sp']; subst.
        * right. rewrite app_nil_r in *. inversion Ho as [? ? ? E1 L E2 E3|la li E1 Oa Oi]; subst; [congruence|]. apply in_or_app. right.
          inversion Oi as [C|t' v' E F M1 M2 I|t' v' k' E F G Nm' Kk'|]; subst; try congruence. rewrite A in E. injection E as <-. rewrite (named_unique _ _ _ Nm' Nm) in *. rewrite Kk in Kk'. injection Kk' as <-. left. reflexivity.
        * left. exists k, c, x. split; [exact G1|]. split; [exact G2|]. exists q', dd, t. rewrite <- app_assoc. auto 10.
  Qed.
  Lemma plan_no_root k0 v0 v : forall a pth l, plan auth root a pth v l -> pth <> [] -> ~ In (DRoot k0 v0) l.
  Proof.
    induction v as [v Hl Hd|l IH|d IH] using pv_ind_deep; intros a pth l0 Pl Np H.
    - inversion Pl; subst; [destruct H|exfalso; eapply Hd; reflexivity].
    - inversion Pl; subst. destruct H.
    - inversion Pl as [? ? ? C|? ? ? ls o Pls Ho]; subst; [exfalso; eapply C; reflexivity|]. apply in_app_iff in H as [H|H].
      + clear -IH Pls H Np. revert H Pls. generalize (S a). revert ls. induction IH as [|[k x] d I1 _ IHd]; intros ls b H Pls; inversion Pls; subst; [destruct H|]. apply in_app_iff in H as [H|H].
        * eapply I1; [eassumption| |exact H]. destruct pth; discriminate.
        * eapply IHd; eassumption.
      + inversion Ho as [? ? ? E1 L E2 E3|la li E1 Oa Oi]; subst; [destruct H|]. apply in_app_iff in H as [H|H]; [inversion Oa|inversion Oi]; subst; cbn in H; intuition discriminate.
  Qed.
End DeedsIn.
