(** C82 in general: documents that refer to references in each other. *)
From Verif Require Import PyBase PyBaseFacts PyVal OrderFacts Regex Numbers Uri Pointer PropsPointer Store Validators Heap HeapFacts PropsWrap PropsPlaces Doc DocMono DocFacts PropsQuery DocLoad PropsLoad DocDocument PropsAnchor PropsRef DocLibrary PropsRefEdge PropsUriEx PropsRetry DocReading PropsRemote PropsRemoteEx PropsLoadAfter.
Local Open Scope nat_scope.
Local Notation length := List.length (only parsing).

(** from one node to another by the members of objects *)
Inductive by_members (h : heap) : addr -> list pystr -> addr -> Prop :=
| bm_here a : by_members h a [] a
| bm_member a d k c p b : val h a (PObj d) -> dget k d = Some c -> by_members h c p b -> by_members h a (k :: p) b.

Section Endless.
  Variables (auth : pystr -> option authority) (dig : N -> option Z) (strx : heap -> addr -> pystr) (fetch : uri -> res pv).
  Notation Runs := (Runs auth dig strx fetch).
  Notation ev := (ev auth dig strx fetch).
  Notation exec := (exec auth dig strx fetch).

  (** The document known as [k] is loaded, and at [p] in it is the node [a]. *)
  Definition has_at (w : world) (k : pystr) (p : list pystr) (a : addr) : Prop :=
    exists s y, dget k (w_store w) = Some s /\ nth_error (w_schemas w) s = Some y /\ s_ready y = true /\
      (forall t, p = [t] -> t <> [] /\ dget t (s_anchors y) = None) /\ by_members (w_heap w) (s_value y) p a.
  (** The node [a] is a reference into the document [s]. *)
  Definition reference_into (w : world) (a : addr) (s : nat) : Prop := exists r n, hget (w_heap w) a = Some n /\ n_val n = PRef r /\ r_schema r = s.

  Definition more (w : world) (l : heap) : world := World (w_heap w ++ l) (w_schemas w) (w_store w).
  Lemma by_members_more h l a p b : by_members h a p b -> by_members (h ++ l) a p b.
  Proof. induction 1 as [|a d k c p b (n & Hn & En) G _ IH]; [constructor|]. eapply bm_member; [exists n; split; [apply hget_app1, Hn|exact En]|exact G|exact IH]. Qed.
  Lemma has_at_more w l k p a : has_at w k p a -> has_at (more w l) k p a.
  Proof. intros (s & y & A1 & A2 & A3 & A4 & A5). exists s, y. repeat split; auto; try (apply A4; assumption). apply by_members_more, A5. Qed.
  Lemma reference_more w l a s : reference_into w a s -> reference_into (more w l) a s.
  Proof. intros (r & n & H & E & S). exists r, n. split; [apply hget_app1, H|auto]. Qed.
  Lemma placed_more h l b g : placed h b g -> placed (h ++ l) b g.
  Proof. intros P i n Hn. apply hget_app1, P, Hn. Qed.
  Lemma waiting_more w l s V : waiting w s V -> waiting (more w l) s V.
  Proof. intros (x & A1 & A2 & A3 & A4). exists x. repeat split; auto. apply placed_more, A4. Qed.

  Lemma follow_members w a p b : by_members (w_heap w) a p b -> ev (fun rec => follow dig rec a p) w w (Ok b).
  Proof. induction 1 as [|a d k c p b V G _ IH]; [apply follow_nil|eapply follow_obj; eassumption]. Qed.
  Lemma has_at_query w k p a s : has_at w k p a -> dget k (w_store w) = Some s -> exists y, nth_error (w_schemas w) s = Some y /\ s_ready y = true /\ Runs (CQuery s p) w w (Ok a).
  Proof.
    intros (s' & y & A1 & A2 & A3 & A4 & A5) E. rewrite A1 in E. injection E as <-. exists y. split; [exact A2|]. split; [exact A3|]. apply ev_step. cbn [Doc.step]. unfold query.
    eapply ev_bind with (a := tt) (w1 := w); [apply ev_pure; intro rec; apply (load_ready w s' y A2 A3)|]. eapply ev_known; [apply schema_at_ok, A2|].
    pose proof (follow_members _ _ _ _ A5) as Fo. destruct p as [|t [|t2 p]]; try exact Fo. destruct (A4 t eq_refl) as [N ->]. assert (str_eqb t [] = false) as -> by (apply str_eqb_neq, N). exact Fo.
  Qed.

  Variables (k t : pystr) (v : uri) (p : list pystr) (a : addr) (s : nat) (V : pv) (q : list pystr) (d : list (pystr * pv)).
  Hypotheses (Rt : remote auth t v k p) (Gt : dget (u "$ref") d = Some (VStr t)).
  Definition stuck (w : world) : Prop := has_at w k p a /\ reference_into w a s /\ waiting w s V.
  Lemma stuck_more w l : stuck w -> stuck (more w l).
  Proof. intros (A & B & C). split; [apply has_at_more, A|]. split; [apply reference_more, B|apply waiting_more, C]. Qed.

  Lemma mmap_out n w s0 (l : list (pystr * pv)) : forall i : list (pystr * addr), Forall2 (fun ka kx => fst ka = fst kx /\ holds (w_heap w) (snd ka) (snd kx)) i l -> Forall (fun kx => without (triggers core) (snd kx)) l ->
    (exists x, nth_error (w_schemas w) s0 = Some x /\ s_voc x = core) -> forall k0 c r, snd (exec n addr (CProcess s0 c) w) = OutOfFuel ->
    snd (mmap (fun kx => mbind (exec n addr (CProcess s0 (snd kx))) (fun z => ret (fst kx, z))) (i ++ (k0, c) :: r) w) = OutOfFuel.
  Proof.
    intros i F2 F1 (x & Hx & Vx) k0 c r E. revert i F2. induction F1 as [|[k2 z] l Hz F IHl]; intros i F2; inversion F2 as [|[k3 c3] ? i4 ? [E1 E2] F4]; subst; cbn [app mmap].
    - apply bind_out, bind_out. exact E.
    - cbn [fst snd] in *. eapply (pass auth dig strx fetch (fun rec => mbind (rec addr (CProcess s0 c3)) (fun z => ret (k3, z))) _ w w (k3, c3)).
      + intros x1 y1 B. apply mle_bind; [apply B|intro; apply mle_refl].
      + eapply ev_bind; [eapply process_free; [exact E2|exact Hx|rewrite Vx; exact Hz]|apply ev_ret].
      + apply bind_out. apply IHl. exact F4.
  Qed.

  Lemma process_endless n : (forall m, m < n -> forall w, stuck w -> snd (exec m jtype (CType a) w) = OutOfFuel) ->
    forall v0 q0, first_at v0 q0 d -> forall m, m <= n -> forall w base par key, stuck w -> placed (w_heap w) base (wrap base par key v0) -> snd (exec m addr (CProcess s base) w) = OutOfFuel.
  Proof.
    intros IHn v0 q0 Fa. remember d as d1 eqn:Ed. induction Fa as [d0 F|l k0 y r q0 d0 F _ IH]; intros m Lm w base par key St P; subst; destruct m as [|m]; try reflexivity;
      rewrite wrap_dict in P; apply placed_cons in P as [P1 P2]; pose proof St as (Ha & (rd & nr & Hr & Er & Es) & (x & Hx & Vx & Rx & _)).
    - pose proof (items_held _ _ _ _ P2) as Hd. unfold held in Hd. set (its := fst (wrap_items base (S base) d)) in *.
      assert (Vb : val (w_heap w) base (PObj its)) by (eexists; split; [exact P1|reflexivity]).
      pose proof (dget_forall2 _ _ _ (u "$ref") Hd) as Gr. rewrite Gt in Gr. destruct Gr as (cr & Gr & Hcr). assert (Vr : val (w_heap w) cr (PStr t)) by (inversion Hcr; assumption).
      cbn [Doc.exec Doc.step]. unfold process. eapply (pass auth dig strx fetch (fun rec => rec jtype (CType base)) _ w w JObj); [intros ? ? B; apply B|exact (runs_type auth dig strx fetch w base _ Vb eq_refl)|].
      apply (bind_ok _ _ w w its); [apply items_obj, Vb|].
      eapply (pass auth dig strx fetch (fun rec => mmap (fun kx => mbind (rec addr (CProcess s (snd kx))) (fun c => ret (fst kx, c))) its) _ w w its); [intros ? ? B; apply mle_mmap; intro; apply mle_bind; [apply B|intro; apply mle_refl]|eapply items_free; eassumption|].
      eapply bind_ok; [apply node_at_ok, P1|]. cbn [n_val]. apply (bind_ok _ _ w w tt); [unfold set_value; rewrite (hset_same _ _ _ Vb); destruct w; reflexivity|].
      eapply bind_ok; [apply schema_at_ok, Hx|]. rewrite Vx. unfold core. cbn [apply_kws kw_names apply_kw].
      apply (bind_ok _ _ w w true); [rewrite (any_has_obj _ w base its _ Vb); cbn [existsb]; rewrite dmem_get, Gr; reflexivity|].
      destruct Rt as (Mt & Pt & (b & Bt & Ut) & Kt). assert (exists sA, dget k (w_store w) = Some sA) as [sA Sk] by (destruct Ha as (s' & y & A1 & _); eauto).
      set (nd := Node (PRef (RefData v base sA p)) par key).
      apply (bind_ok _ _ w (more w [nd]) (length (w_heap w))).
      { unfold apply_ref. unfold mbind at 1. rewrite (member_obj strx _ w base its _ cr t Vb Gr Vr). unfold lift at 1. rewrite Mt. unfold mbind at 1. unfold lift at 1. rewrite Pt.
        unfold mbind at 1. unfold lift at 1. rewrite Bt. unfold mbind at 1. unfold mbind at 1. rewrite (node_at_ok _ _ _ P1), Ut.
        unfold mbind at 1. rewrite (schema_at_ok _ _ _ Hx). unfold mbind at 1. unfold store_load, store_key. unfold mbind at 1. unfold lift at 1. rewrite Kt. unfold mbind at 1. unfold get_world. rewrite Sk. reflexivity. }
      assert (Hn : hget (w_heap (more w [nd])) (length (w_heap w)) = Some nd) by (cbn [more w_heap]; unfold hget; rewrite nth_error_app2, Nat.sub_diag by lia; reflexivity).
      apply bind_out. cbn [any_has kw_names]. apply bind_out. unfold node_has. eapply bind_ok; [apply node_at_ok, Hn|]. cbn [nd n_val]. apply bind_out.
      destruct m as [|m]; [reflexivity|]. cbn [Doc.exec Doc.step]. unfold ref_raw. eapply bind_ok; [apply node_at_ok, Hn|]. cbn [nd n_val r_schema r_pointer r_node].
      destruct (has_at_query (more w [nd]) k p a sA (has_at_more _ _ _ _ _ Ha) Sk) as (y & Hy & Ry & Q). eapply bind_ok; [apply schema_at_ok, Hy|]. rewrite Ry.
      eapply (pass auth dig strx fetch (fun rec => rec addr (CQuery sA p)) _ _ (more w [nd]) a); [intros ? ? B; apply B|exact Q|]. apply bind_out. apply IHn; [lia|apply stuck_more, St].
    - assert (Vb : val (w_heap w) base (PObj (fst (wrap_items base (S base) (l ++ (k0, y) :: r))))) by (eexists; split; [exact P1|reflexivity]).
      rewrite wrap_items_app, wrap_items_cons in Vb, P2. cbn [fst snd] in Vb, P2. set (i1 := fst (wrap_items base (S base) l)) in *. set (n1 := snd (wrap_items base (S base) l)) in *. set (c := after (S base) n1) in *.
      apply placed_app in P2 as [P3 P2]. pose proof (items_held _ _ _ _ P3) as F1. fold i1 in F1. apply placed_app in P2 as [Pc _]. fold (after (S base) n1) in Pc. fold c in Pc.
      cbn [Doc.exec Doc.step]. unfold process. eapply (pass auth dig strx fetch (fun rec => rec jtype (CType base)) _ w w JObj); [intros ? ? B; apply B|exact (runs_type auth dig strx fetch w base _ Vb eq_refl)|].
      eapply bind_ok; [apply items_obj, Vb|]. apply bind_out. eapply mmap_out; [exact F1|exact F|eauto|]. apply (IH eq_refl Gt m ltac:(lia) w c (Some base) k0 St Pc).
  Qed.

  Hypothesis (Fa : first_at V q d).
  Lemma load_out n : (forall m, m < n -> forall w, stuck w -> snd (exec m jtype (CType a) w) = OutOfFuel) -> forall m, m <= n -> forall w, stuck w -> snd (load (exec m) s w) = OutOfFuel.
  Proof.
    intros IH m Lm w St. pose proof St as (_ & _ & (x & Hx & Vx & Rx & P)). unfold load. eapply bind_ok; [apply schema_at_ok, Hx|]. rewrite Rx. apply bind_out. eapply process_endless; eassumption.
  Qed.
  Lemma type_out n : forall w, stuck w -> snd (exec n jtype (CType a) w) = OutOfFuel.
  Proof.
    induction n as [n IH] using lt_wf_ind. intros w St. destruct n as [|n]; [reflexivity|]. pose proof St as (_ & (rd & nr & Hr & Er & Es) & _). cbn [Doc.exec Doc.step]. unfold node_type.
    eapply bind_ok; [apply node_at_ok, Hr|]. rewrite Er. apply bind_out. destruct n as [|n]; [reflexivity|]. cbn [Doc.exec Doc.step]. unfold query. apply bind_out. rewrite Es. apply (load_out n); [|lia|exact St]. intros m Lm. apply IH. lia.
  Qed.
End Endless.

(** A document is loaded, and in it is a reference into another one, which was not
    loaded.  When the first object with a keyword in that other document is a
    reference back to that reference, neither what is there nor the other document
    can be had: asking for the type of the reference, and loading the other
    document, never end. *)
Theorem C82_endless auth dig strx fetch w k p a s V q d t v : has_at w k p a -> reference_into w a s -> waiting w s V ->
  first_at V q d -> dget (u "$ref") d = Some (VStr t) -> remote auth t v k p ->
  Diverges auth dig strx fetch (CType a) w /\ forall n, snd (load_n auth dig strx fetch n s w) = OutOfFuel.
Proof.
  intros A B C Fa Gt Rt. assert (St : stuck k p a s V w) by (split; [exact A|]; split; [exact B|exact C]). split; intro n.
  - eapply type_out; eassumption.
  - unfold load_n. eapply load_out with (n := n); [exact Rt|exact Gt|exact Fa| |apply le_n|exact St]. intros m _ w' S'. eapply type_out; eassumption.
Qed.
(** The state in which [C82_refuted] comes to no end meets the conditions. *)
Example C82_endless_some strx : exists w1 a q d t v, Runs toy ex_dig strx (from C82_shelf) (CQuery 0 [u "x"]) C82_w0 w1 (Ok a) /\
  has_at w1 (u "http://h/b") [u "x"] a /\ reference_into w1 a 1 /\ waiting w1 1 C82_a /\ first_at C82_a q d /\ dget (u "$ref") d = Some (VStr t) /\ remote toy t v (u "http://h/b") [u "x"].
Proof.
  exists C82_w1, 10, [u "z"], [(u "$ref", VStr (u "http://h/b#/x"))], (u "http://h/b#/x"). eexists. split; [apply (Runs_once _ _ _ _ _ _ _ _ 12); [vm_compute; reflexivity|discriminate]|].
  split; [|split; [|split; [|split; [|split]]]].
  - do 2 eexists. split; [reflexivity|]. split; [reflexivity|]. split; [reflexivity|]. split; [intros t [= <-]; split; [discriminate|reflexivity]|].
    eapply bm_member; [eexists; split; reflexivity|reflexivity|apply bm_here].
  - do 2 eexists. split; [reflexivity|]. split; reflexivity.
  - eexists. split; [reflexivity|]. split; [reflexivity|]. split; [reflexivity|]. intros i n Hn. do 6 (destruct i as [|i]; [injection Hn as <-; reflexivity|]). destruct i; discriminate.
  - apply (fa_member []); [constructor|]. apply fa_here. repeat constructor; intros; discriminate.
  - reflexivity.
  - split; [vm_compute; reflexivity|]. split; [vm_compute; reflexivity|]. split; [eexists; split; [vm_compute; reflexivity|reflexivity]|vm_compute; reflexivity].
Qed.
