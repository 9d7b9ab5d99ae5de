(** C45: loading twice, and loading documents without keywords. *)
From Verif Require Import PyBase PyBaseFacts PyVal OrderFacts Regex Numbers Uri Pointer Store Validators Heap HeapFacts PropsWrap PropsPlaces Doc DocMono DocFacts PropsQuery DocLoad.
Local Open Scope nat_scope.
Local Notation length := List.length (only parsing).

(** ** C45 *)
(** no object of the value, arrays apart, has a member with one of these names *)
Inductive without (names : list pystr) : pv -> Prop :=
| wo_leaf v : (forall d, v <> VDict d) -> without names v
| wo_dict d : Forall (fun kx => ~ In (fst kx) names /\ without names (snd kx)) d -> without names (VDict d).
(** the names that trigger the keywords of a vocabulary *)
Definition triggers (voc : list appkw) : list pystr := List.concat (map kw_names voc).
Definition made_ready (w : world) (s : nat) : world :=
  World (w_heap w) (upd (w_schemas w) s (fun x => Schema (s_value x) true (s_voc x) (s_anchors x) (s_id x))) (w_store w).

Section C45.
  Variables (auth : pystr -> option authority) (dig : N -> option Z) (strx : heap -> addr -> pystr) (fetch : uri -> res pv).
  Notation Runs := (Runs auth dig strx fetch).
  Notation ev := (ev auth dig strx fetch).
  (** a load that succeeded: the next one changes nothing *)
  Theorem C45_again s w w' : ev (fun rec => load rec s) w w' (Ok tt) -> ev (fun rec => load rec s) w' w' (Ok tt).
  Proof.
    intros [n0 H]. assert (R : exists x, nth_error (w_schemas w') s = Some x /\ s_ready x = true).
    { specialize (H n0 (Nat.le_refl _)). unfold load, mbind, schema_at in H. destruct (nth_error (w_schemas w) s) as [x|] eqn:E; [|discriminate].
      destruct (s_ready x) eqn:Rx; [injection H as <-; eauto|]. destruct (exec auth dig strx fetch n0 addr (CProcess s (s_value x)) w) as [w1 [a|e|]]; try discriminate.
      destruct (nth_error (w_schemas w1) s) as [y|] eqn:Ey; [|discriminate]. unfold set_schema in H. injection H as <-. cbn [w_schemas].
      rewrite nth_lput, Nat.eqb_refl, Ey. eauto. }
    destruct R as (x & Hx & Rx). apply ev_pure. apply (load_ready w' s x Hx Rx).
  Qed.

  Lemma no_trigger voc (its : list (pystr * addr)) : Forall (fun ka => ~ In (fst ka) (triggers voc)) its -> forall w s a, val (w_heap w) a (PObj its) -> forall rec, apply_kws auth strx fetch rec voc s a w = (w, Ok a).
  Proof.
    unfold triggers. intros F w s a V rec. induction voc as [|k voc IH]; [reflexivity|]. cbn [apply_kws map List.concat] in *.
    unfold mbind at 1. rewrite (any_has_obj rec w a its _ V).
    assert (E : existsb (fun n => dmem n its) (kw_names k) = false).
    { destruct (existsb _ _) eqn:E; [|reflexivity]. apply existsb_exists in E as (n & Hn & Hm). apply dmem_In in Hm. unfold dkeys in Hm. apply in_map_iff in Hm as ([n' c] & <- & Hin). rewrite Forall_forall in F. destruct (F _ Hin). apply in_or_app. left. exact Hn. }
    rewrite E. unfold mbind at 1. cbn [ret]. apply IH. eapply Forall_impl; [|exact F]. intros ka Hk Hi. apply Hk, in_or_app. right. exact Hi.
  Qed.
  Lemma process_free v : forall w s x a, holds (w_heap w) a v -> nth_error (w_schemas w) s = Some x -> without (triggers (s_voc x)) v -> Runs (CProcess s a) w w (Ok a).
  Proof.
    induction v as [v Hl Hd|l IH|d IH] using pv_ind_deep; intros w s x a H Hx F; apply ev_step; cbn [Doc.step]; unfold process.
    - inversion H as [? V|? ? V|? ? V|? ? ? V|? ? ? V|? ? ? V|? ? els V Fe|? ? its V Fe]; subst; try (exfalso; eapply Hd; reflexivity);
        (eapply ev_bind; [apply (runs_type _ _ _ _ w a _ V eq_refl)|]; apply ev_ret).
    - inversion H as [| | | | | |? ? els V Fe|]; subst. eapply ev_bind; [apply (runs_type _ _ _ _ w a _ V eq_refl)|]; apply ev_ret.
    - inversion H as [| | | | | | |? ? its V Fe]; subst. inversion F as [? C|? Fd]; subst; [exfalso; eapply C; reflexivity|].
      eapply ev_bind; [apply (runs_type _ _ _ _ w a _ V eq_refl)|]. cbn [kind_of]. eapply ev_bind; [apply ev_pure; intro rec; apply (items_obj rec w a its V)|].
      assert (K : ev (fun rec => mmap (fun kx => c <~ rec addr (CProcess s (snd kx)) ;; ret (fst kx, c)) its) w w (Ok its)).
      { clear V H F. revert its Fe. induction Fd as [|[k2 y] d [_ Hy] Fd IHd]; intros its Fe; inversion Fe as [|[k1 c] ? its' ? [E1 E2] Fe']; subst; [apply ev_ret|].
        inversion IH as [|? ? I1 I2]; subst. cbn [mmap]. cbn [fst snd] in *.
        eapply ev_bind with (a := (k1, c)); [eapply ev_bind; [eapply I1; eassumption|apply ev_ret]|]. eapply ev_bind; [apply IHd; assumption|apply ev_ret]. }
      eapply ev_bind; [exact K|]. pose proof V as (n & Hn & En). eapply ev_known; [apply node_at_ok, Hn|]. rewrite En.
      eapply ev_known with (w1 := w) (a := tt); [unfold set_value; rewrite (hset_same _ _ _ V); destruct w; reflexivity|].
      eapply ev_known; [apply schema_at_ok, Hx|]. apply ev_pure. apply no_trigger with (its := its); [|exact V].
      clear -Fe Fd. revert its Fe. induction Fd as [|[k2 y] d [Hk _] Fd IHd]; intros its Fe; inversion Fe as [|[k1 c] ? its' ? [E1 E2] Fe']; subst; constructor; [cbn in *; congruence|auto].
  Qed.
  (** a document without such members: only the flag changes *)
  Theorem C45_untouched s w x v : nth_error (w_schemas w) s = Some x -> holds (w_heap w) (s_value x) v -> without (triggers (s_voc x)) v ->
    ev (fun rec => load rec s) w (made_ready w s) (Ok tt).
  Proof.
    intros Hx H F. unfold load. eapply ev_known; [apply schema_at_ok, Hx|]. destruct (s_ready x) eqn:Rx.
    - apply ev_pure. intros _. unfold ret. f_equal. unfold made_ready, upd. rewrite Hx, <- Rx. destruct w as [h ss st]. cbn [w_schemas w_heap w_store] in *. f_equal.
      clear -Hx. destruct x as [a b c e f]. cbn. revert s Hx. induction ss as [|y ss IH]; intros [|s] Hx; cbn in *; try discriminate; [injection Hx as <-; reflexivity|]. rewrite <- IH by exact Hx. reflexivity.
    - eapply ev_bind; [eapply process_free; eassumption|]. eapply ev_known; [apply schema_at_ok, Hx|]. apply ev_pure. intros _. unfold set_schema, made_ready, upd. rewrite Hx. reflexivity.
  Qed.
End C45.
Example C45_some : let v := VDict [(u "type", VStr (u "object")); (u "properties", VDict [(u "a", VDict [(u "minimum", VInt 3)])]); (u "allOf", VList [VDict [(u "$ref", VInt 1)]])] in
  without (triggers core) v /\ exists w x, fst (make_schema v core (World [] [] [])) = w /\ nth_error (w_schemas w) 0 = Some x /\ s_voc x = core /\ holds (w_heap w) (s_value x) v.
Proof.
  intro v. split.
  - assert (N : forall k, existsb (str_eqb k) (triggers core) = false -> ~ In k (triggers core)).
    { intros k H Hi. assert (existsb (str_eqb k) (triggers core) = true); [|congruence]. apply existsb_exists. exists k. split; [exact Hi|apply str_eqb_refl]. }
    apply wo_dict. apply Forall_cons; [|apply Forall_cons; [|apply Forall_cons; [|apply Forall_nil]]]; (split; [apply N; vm_compute; reflexivity|]); cbn [snd].
    + apply wo_leaf. discriminate.
    + apply wo_dict. apply Forall_cons; [|apply Forall_nil]. split; [apply N; vm_compute; reflexivity|]. apply wo_dict. apply Forall_cons; [|apply Forall_nil]. split; [apply N; vm_compute; reflexivity|]. apply wo_leaf. discriminate.
    + apply wo_leaf. discriminate.
  - eexists. eexists. split; [reflexivity|]. split; [reflexivity|]. split; [reflexivity|]. exact (C37_shape [] v).
Qed.
