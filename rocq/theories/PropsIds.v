(** Which identifiers and references a document may have: loading refuses the rest. *)
From Verif Require Import PyBase PyBaseFacts PyVal OrderFacts Regex Numbers Uri Pointer Store Validators Heap HeapFacts PropsWrap PropsPlaces Doc DocMono DocFacts PropsQuery DocLoad DocDocument PropsResolve PropsAnchor PropsUriEx.
Local Open Scope nat_scope.
Local Notation length := List.length (only parsing).

(** ** What is wrong with a document, on plain values *)
Section Spec.
  Variable auth : pystr -> option authority.
  (** The identifier [t] of an object at path [pth], in a document whose root has
      identifier [root]: not a URI, with a fragment, or not absolute and with nothing
      to make it so. *)
  Inductive bad_id (root : option pystr) (pth : list pystr) (t : pystr) : exn -> Prop :=
  | bi_text e : mk_uri auth t = Raise e -> bad_id root pth t e
  | bi_fragment v : mk_uri auth t = Ok v -> u_frag v <> [] -> bad_id root pth t EValue
  | bi_root v : pth = [] -> mk_uri auth t = Ok v -> u_frag v = [] -> is_absolute auth v = Ok false -> bad_id root pth t EValue
  | bi_alone v : pth <> [] -> ~ In (u "enum") pth -> mk_uri auth t = Ok v -> u_frag v = [] -> is_absolute auth v = Ok false -> root = None -> bad_id root pth t EValue
  | bi_base v rt e : pth <> [] -> ~ In (u "enum") pth -> mk_uri auth t = Ok v -> u_frag v = [] -> is_absolute auth v = Ok false -> root = Some rt -> mk_uri auth rt = Raise e ->
      bad_id root pth t e
  | bi_still v rt b v' : pth <> [] -> ~ In (u "enum") pth -> mk_uri auth t = Ok v -> u_frag v = [] -> is_absolute auth v = Ok false -> root = Some rt -> mk_uri auth rt = Ok b ->
      resolve auth b v = Ok v' -> is_absolute auth v' = Ok false -> bad_id root pth t EValue.
  Inductive bad_object (root : option pystr) (pth : list pystr) (d : list (pystr * pv)) : exn -> Prop :=
  | bo_ref t e : dget (u "$ref") d = Some (VStr t) -> mk_uri auth t = Raise e -> bad_object root pth d e
  | bo_pointer t v e : dget (u "$ref") d = Some (VStr t) -> mk_uri auth t = Ok v -> pointer_parse (u_frag v) = Raise e -> bad_object root pth d e
  | bo_id t e : dget (u "$ref") d = None -> (dget (u "$anchor") d = None \/ exists a, dget (u "$anchor") d = Some (VStr a)) ->
      id_member d = Some (VStr t) -> bad_id root pth t e -> bad_object root pth d e.
  (** the first bad object, members before the object they are in *)
  Inductive spoiled (root : option pystr) : list pystr -> pv -> exn -> Prop :=
  | sp_own pth d e : Forall (fun kx => fit auth root (pth ++ [fst kx]) (snd kx)) d -> bad_object root pth d e -> spoiled root pth (VDict d) e
  | sp_below pth d1 k x d2 e : Forall (fun kx => fit auth root (pth ++ [fst kx]) (snd kx)) d1 -> spoiled root (pth ++ [k]) x e -> spoiled root pth (VDict (d1 ++ (k, x) :: d2)) e.
End Spec.

Lemma wrap_items_app base d1 : forall b d2, wrap_items base b (d1 ++ d2) =
  (fst (wrap_items base b d1) ++ fst (wrap_items base (b + length (snd (wrap_items base b d1))) d2),
   snd (wrap_items base b d1) ++ snd (wrap_items base (b + length (snd (wrap_items base b d1))) d2)).
Proof.
  induction d1 as [|[k x] d1 IH]; intros b d2.
  - cbn [app]. cbn [wrap_items fst snd length app]. rewrite Nat.add_0_r. destruct (wrap_items base b d2); reflexivity.
  - cbn [app]. rewrite !wrap_items_cons. unfold after in *. rewrite IH. cbn [fst snd app]. rewrite app_length, Nat.add_assoc, <- app_assoc. reflexivity.
Qed.

Lemma dmem_set {A} k k' (x : A) d : dmem k (dset k' x d) = str_eqb k k' || dmem k d.
Proof. rewrite !dmem_get. destruct (str_eqb_spec k k') as [->|N]; [rewrite dget_dset_eq|rewrite dget_dset_neq by exact N]; reflexivity. Qed.
Lemma sub_less a y n : a <= y < a + n -> y - a < n.
Proof. lia. Qed.
Section Refuse.
  Variables (auth : pystr -> option authority) (dig : N -> option Z) (strx : heap -> addr -> pystr) (fetch : uri -> res pv).
  Notation Runs := (Runs auth dig strx fetch).
  Notation ev := (ev auth dig strx fetch).
  Variable s : nat.

  Definition bare (h : heap) (r : addr) (root : option pystr) : Prop := root = None -> exists rits, val h r (PObj rits) /\ id_member rits = None.
  Record env (w : world) (base : addr) (pth : list pystr) (root : option pystr) (r : addr) : Prop := Env {
    v_schema : exists x, nth_error (w_schemas w) s = Some x /\ s_voc x = core /\ s_ready x = false;
    v_keys : keys_up (S base) (w_heap w) base = Ok pth;
    v_root : root_up (S base) (w_heap w) base = Ok r;
    v_id : root_id (w_heap w) r root;
    v_bare : bare (w_heap w) r root;
    v_le : r <= base }.
  Lemma env_effect w w' base pth root r b n l : env w base pth root r -> effect s w w' b n l -> base < b -> env w' base pth root r.
  Proof.
    intros [S1 S2 S3 S4 S5 S6] E L.
    assert (Fr : forall y m, hget (w_heap w) y = Some m -> y < b -> hget (w_heap w') y = Some m).
    { intros y m Hy Ny. rewrite (e_frame _ _ _ _ _ _ E); [exact Hy|apply hget_lt in Hy; exact Hy|lia]. }
    pose proof (e_link _ _ _ _ _ _ E) as SL. constructor.
    - destruct S1 as (x & X1 & X2 & X3). destruct (done_schema s l (w_schemas w, w_store w) x X1) as (x1 & Y1 & _ & Y2 & Y3).
      rewrite <- (e_regs _ _ _ _ _ _ E) in Y1. exists x1. split; [exact Y1|]. split; congruence.
    - eapply keys_up_same; eassumption.
    - eapply root_up_same; eassumption.
    - destruct S4 as (rits & (m & Hm & Em) & Mt). exists rits. split; [exists m; split; [apply Fr; [exact Hm|lia]|exact Em]|]. destruct root as [rt|]; [|exact I].
      destruct Mt as (c & Hc & Vc). exists c. split; [exact Hc|]. exact (e_str _ _ _ _ _ _ E _ _ Vc).
    - intro R. destruct (S5 R) as (rits & (m & Hm & Em) & Mt). exists rits. split; [exists m; split; [apply Fr; [exact Hm|lia]|exact Em]|exact Mt].
    - exact S6.
  Qed.
  Lemma env_below w base pth root r b k v : env w base pth root r -> base < b -> placed (w_heap w) b (wrap b (Some base) k v) ->
    env w b (pth ++ [k]) root r /\ start s w b (Some base) (pth ++ [k]) root.
  Proof.
    intros [S1 S2 S3 S4 S5 S6] Lb P. destruct (placed_head _ _ _ _ _ P) as (m & Hm & Em1 & Em2).
    assert (A1 : keys_up (S b) (w_heap w) b = Ok (pth ++ [k])) by (cbn [keys_up]; rewrite Hm, Em1, (keys_up_more _ _ _ _ S2 ltac:(discriminate) b ltac:(lia)), Em2; reflexivity).
    assert (A2 : root_up (S b) (w_heap w) b = Ok r) by (cbn [root_up]; rewrite Hm, Em1; apply (root_up_more _ _ _ _ S3); [discriminate|lia]).
    split; [constructor; auto; lia|]. split; [exact S1|]. split; [exact A1|]. exists r. split; [exact A2|]. split; [lia|]. split; [intros _; lia|exact S4].
  Qed.

  Lemma fit_plans root pth d : forall a b, Forall (fun kx => fit auth root (pth ++ [fst kx]) (snd kx)) d -> exists ls, plans auth root a b pth d ls.
  Proof.
    intros a b F. revert b. induction F as [|[k x] d Fx Fd IH]; intro b; [exists []; constructor|]. cbn [fst snd] in *.
    destruct (fit_plan auth root x b (pth ++ [k]) Fx) as [l Hl]. destruct (IH (after b (wrap b (Some a) k x))) as [ls Hls]. exists (l ++ ls). constructor; assumption.
  Qed.
  (** the members, when all of them load *)
  Lemma members_done root (base : addr) pth r d : forall (b : addr) ls w, base < b -> placed (w_heap w) b (snd (wrap_items base b d)) -> env w base pth root r -> plans auth root base b pth d ls ->
    exists w' its', ev (fun rec => mmap (mapper s rec) (fst (wrap_items base b d))) w w' (Ok its') /\ effect s w w' b (length (snd (wrap_items base b d))) ls /\
      DocLoad.settled (w_heap w) (w_heap w') b (length (snd (wrap_items base b d))) (fun h2 => Forall2 (fun ka kx => fst ka = fst kx /\ loaded auth h2 s (snd ka) (snd kx)) its' d).
  Proof.
    induction d as [|[k v] d IH]; intros b ls w Lb P Ev Pl.
    - inversion Pl; subst. exists w, []. split; [apply ev_ret|]. split; [apply effect_refl|]. intros h2 _. constructor.
    - inversion Pl as [|? ? ? ? ? ? l ls' Pv Pd]; subst. rewrite wrap_items_cons in P. cbn [snd] in P. apply placed_app in P as [Pv' Pd'].
      destruct (env_below w base pth root r b k v Ev Lb Pv') as [_ Stv].
      destruct (process_value auth dig strx fetch s v w b (Some base) k (pth ++ [k]) root l Pv' Stv Pv) as (w1 & a1 & R1 & E1 & L1).
      pose proof (e_len _ _ _ _ _ _ E1) as Len1.
      destruct (IH (after b (wrap b (Some base) k v)) ls' w1) as (w2 & its2 & R2 & E2 & L2).
      + unfold after. lia.
      + eapply placed_mono; [|exact Pd']. intros y n Ly Hy. unfold after in Ly. rewrite (e_frame _ _ _ _ _ _ E1); [exact Hy|apply hget_lt in Hy; exact Hy|lia].
      + eapply env_effect; eassumption.
      + exact Pd.
      + pose proof (e_len _ _ _ _ _ _ E2) as Len2. exists w2, ((k, a1) :: its2). rewrite wrap_items_cons. cbn [fst snd]. split; [|split].
        * cbn [mmap]. eapply ev_bind with (w1 := w1) (a := (k, a1)); [unfold mapper; cbn [fst snd]; eapply ev_bind; [exact R1|apply ev_ret]|]. eapply ev_bind; [exact R2|apply ev_ret].
        * rewrite app_length. eapply effect_trans; [exact E1|exact E2].
        * unfold after in *. rewrite app_length. intros h2 A.
          assert (Bd : forall y, b + length (wrap b (Some base) k v) <= y < b + length (wrap b (Some base) k v) + length (snd (wrap_items base (b + length (wrap b (Some base) k v)) d)) -> y < length (w_heap w)).
          { intros y Hy. assert (Hl : y - (b + length (wrap b (Some base) k v)) < length (snd (wrap_items base (b + length (wrap b (Some base) k v)) d))). { apply sub_less, Hy. } pose proof (placed_lt _ _ _ _ Pd' Hl) as Q. unfold after in Q. lia. }
          assert (Q1 : loaded auth h2 s a1 v).
          { apply L1. intros y Hy. rewrite A by lia. apply (e_frame _ _ _ _ _ _ E2); [|intro C; pose proof (Bd y C); lia].
            destruct Hy as [Hy|Hy]; [|lia]. pose proof (placed_lt _ _ _ (y - b) Pv' ltac:(lia)). lia. }
          constructor; [split; [reflexivity|exact Q1]|]. apply L2. intros y Hy. apply A. lia.
  Qed.
  (** the members, when one of them does not *)
  Lemma members_refused root (base : addr) pth r k x d2 e : 
    (forall w b par, placed (w_heap w) b (wrap b par k x) -> env w b (pth ++ [k]) root r -> start s w b par (pth ++ [k]) root -> par <> None -> exists w', Runs (CProcess s b) w w' (Raise e)) ->
    forall d1 b ls w, base < b -> placed (w_heap w) b (snd (wrap_items base b (d1 ++ (k, x) :: d2))) -> env w base pth root r -> plans auth root base b pth d1 ls ->
    exists w', ev (fun rec => mmap (mapper s rec) (fst (wrap_items base b (d1 ++ (k, x) :: d2)))) w w' (Raise e).
  Proof.
    intro H. induction d1 as [|[k1 v] d IH]; intros b ls w Lb P Ev Pl.
    - cbn [app] in *. rewrite wrap_items_cons in *. cbn [fst snd] in *. apply placed_app in P as [Pv' Pd']. destruct (env_below w base pth root r b k x Ev Lb Pv') as [Evx Stx].
      destruct (H w b (Some base) Pv' Evx Stx ltac:(discriminate)) as (w' & R). exists w'. cbn [mmap]. apply ev_bind_raise. unfold mapper. cbn [fst snd]. apply ev_bind_raise. exact R.
    - inversion Pl as [|? ? ? ? ? ? l ls' Pv Pd]; subst. cbn [app] in *. rewrite wrap_items_cons in *. cbn [fst snd] in *. apply placed_app in P as [Pv' Pd'].
      destruct (env_below w base pth root r b k1 v Ev Lb Pv') as [_ Stv].
      destruct (process_value auth dig strx fetch s v w b (Some base) k1 (pth ++ [k1]) root l Pv' Stv Pv) as (w1 & a1 & R1 & E1 & L1).
      destruct (IH (after b (wrap b (Some base) k1 v)) ls' w1) as (w2 & R2).
      + unfold after. lia.
      + eapply placed_mono; [|exact Pd']. intros y n Ly Hy. unfold after in Ly. rewrite (e_frame _ _ _ _ _ _ E1); [exact Hy|apply hget_lt in Hy; exact Hy|lia].
      + eapply env_effect; eassumption.
      + exact Pd.
      + exists w2. cbn [mmap]. eapply ev_bind with (w1 := w1) (a := (k1, a1)); [unfold mapper; cbn [fst snd]; eapply ev_bind; [exact R1|apply ev_ret]|]. apply ev_bind_raise. exact R2.
  Qed.

  (** a key the store must not have *)
  Definition unknown (st : list (pystr * nat)) (t : pystr) : Prop := forall v k, mk_uri auth t = Ok v -> key_of auth v = Ok k -> is_absolute auth v = Ok false -> dmem k st = false.
  Lemma id_refused w a its d par key pth r root x t e : hget (w_heap w) a = Some (Node (PObj its) par key) -> texts (w_heap w) its d ->
    nth_error (w_schemas w) s = Some x -> node_path (w_heap w) a = Ok pth -> node_root (w_heap w) a = Ok r ->
    (par = None <-> pth = []) -> (par <> None -> root_id (w_heap w) r root /\ bare (w_heap w) r root) -> id_member d = Some (VStr t) -> bad_id auth root pth t e ->
    (par = None -> unknown (w_store w) t) ->
    exists w', forall rec, apply_kws auth strx fetch rec [AKId] s a w = (w', Raise e).
  Proof.
    intros Ha T Hx Hp Hr Hpar Hroot Ei Hb Un.
    assert (V : val (w_heap w) a (PObj its)) by (eexists; split; [exact Ha|reflexivity]).
    pose proof (texts_id _ _ _ T) as Ti. rewrite Ei in Ti. destruct Ti as (c & Hc & Vc).
    assert (Kd : keyed its = true) by (unfold keyed; rewrite !dmem_get; unfold id_member in Hc; destruct (dget (u "$id") its); [reflexivity|rewrite Hc; reflexivity]).
    assert (K0 : forall rec, apply_kws auth strx fetch rec [AKId] s a w = mbind (apply_id auth strx rec s a) (fun a' => ret a') w).
    { intro rec. cbn [apply_kws kw_names apply_kw]. unfold mbind at 1. rewrite (any_has_obj rec w a its _ V).
      change (mbind (if keyed its then apply_id auth strx rec s a else ret a) (fun a' => ret a') w = mbind (apply_id auth strx rec s a) (fun a' => ret a') w). rewrite Kd. reflexivity. }
    assert (K1 : forall rec, mk_uri auth t = Raise e -> apply_kws auth strx fetch rec [AKId] s a w = (w, Raise e)).
    { intros rec E. rewrite K0. unfold mbind at 1. unfold apply_id. unfold mbind at 1. rewrite (id_text_ok strx rec w a its c t V Hc Vc). unfold mbind at 1, lift. rewrite E. reflexivity. }
    Ltac top rec K0 V Hc Vc E := rewrite K0; unfold mbind at 1; unfold apply_id; unfold mbind at 1; rewrite (id_text_ok _ rec _ _ _ _ _ V Hc Vc); unfold mbind at 1, lift; rewrite E.
    Ltac nested Ha Hp Nin Hr Ab := unfold mbind at 1; rewrite (node_at_ok _ _ _ Ha); cbn [n_parent n_val]; unfold mbind at 1, get_world; unfold mbind at 1; rewrite Hp, Nin;
      unfold mbind at 1; rewrite Ab; unfold mbind at 1; unfold mbind at 1; rewrite Hr.
    assert (Ne : ~ In (u "enum") pth -> str_mem (u "enum") pth = false) by (intro N; destruct (str_mem (u "enum") pth) eqn:E; [apply str_mem_In in E; contradiction|reflexivity]).
    destruct Hb as [e E|v E F|v P E F Ab|v P N E F Ab R|v rt e P N E F Ab R Eb|v rt b v' P N E F Ab R Eb Rs Ab'].
    - exists w. intro rec. apply K1, E.
    - exists w. intro rec. top rec K0 V Hc Vc E. destruct (u_frag v); [congruence|reflexivity].
    - destruct par as [q|]; [discriminate (proj2 Hpar P)|]. assert (exists k, key_of auth v = Ok k) as [k Hk] by (unfold key_of, base_uri, copy_with; cbn; eauto).
      eexists. intro rec. top rec K0 V Hc Vc E. rewrite F. unfold mbind at 1. rewrite (node_at_ok _ _ _ Ha). cbn [n_parent n_val].
      unfold mbind at 1. rewrite (schema_at_ok _ _ _ Hx). unfold mbind at 1, set_schema. cbn [w_heap w_schemas w_store]. unfold mbind at 1. rewrite (contains_ok auth _ _ k Hk). cbn [w_store].
      rewrite (Un eq_refl v k E Hk Ab). unfold mbind at 1. unfold store_add. unfold mbind at 1, lift. rewrite Ab. reflexivity.
    - destruct par as [q|]; [|destruct (P (proj1 Hpar eq_refl))]. destruct (Hroot ltac:(discriminate)) as (_ & Br). destruct (Br R) as (rits & Vr & Nr). destruct (keyed_none _ Nr) as [N1 N2].
      exists w. intro rec. top rec K0 V Hc Vc E. rewrite F. nested Ha Hp (Ne N) Hr Ab.
      unfold mbind at 1. rewrite (has_obj rec w r rits _ Vr). cbn [dict_has]. rewrite N1. unfold mbind at 1. rewrite (has_obj rec w r rits _ Vr). cbn [dict_has]. rewrite N2. reflexivity.
    - destruct par as [q|]; [|destruct (P (proj1 Hpar eq_refl))]. destruct (Hroot ltac:(discriminate)) as ((rits & Vr & M) & _). rewrite R in M. destruct M as (cr & Hcr & Vcr).
      exists w. intro rec. top rec K0 V Hc Vc E. rewrite F. nested Ha Hp (Ne N) Hr Ab.
      unfold mbind at 1. rewrite (has_obj rec w r rits _ Vr). cbn [dict_has]. rewrite dmem_get. unfold id_member in Hcr.
      destruct (dget (u "$id") rits) as [c'|] eqn:Eid.
      + injection Hcr as ->. unfold mbind at 1. rewrite (member_obj strx rec w r rits _ _ _ Vr Eid Vcr). unfold mbind at 1. rewrite Eb. reflexivity.
      + unfold mbind at 1. rewrite (has_obj rec w r rits _ Vr). cbn [dict_has]. rewrite dmem_get, Hcr. unfold mbind at 1. rewrite (member_obj strx rec w r rits _ _ _ Vr Hcr Vcr). unfold mbind at 1. rewrite Eb. reflexivity.
    - destruct par as [q|]; [|destruct (P (proj1 Hpar eq_refl))]. destruct (Hroot ltac:(discriminate)) as ((rits & Vr & M) & _). rewrite R in M. destruct M as (cr & Hcr & Vcr).
      eexists. intro rec. top rec K0 V Hc Vc E. rewrite F. nested Ha Hp (Ne N) Hr Ab.
      unfold mbind at 1. rewrite (has_obj rec w r rits _ Vr). cbn [dict_has]. rewrite dmem_get. unfold id_member in Hcr.
      destruct (dget (u "$id") rits) as [c'|] eqn:Eid.
      + injection Hcr as ->. unfold mbind at 1. rewrite (member_obj strx rec w r rits _ _ _ Vr Eid Vcr). unfold mbind at 1. rewrite Eb, Rs.
        unfold mbind at 1. rewrite (schema_at_ok _ _ _ Hx). unfold mbind at 1, add_schema. cbn [w_heap w_schemas w_store]. unfold mbind at 1. unfold store_add. unfold mbind at 1, lift. rewrite Ab'. reflexivity.
      + unfold mbind at 1. rewrite (has_obj rec w r rits _ Vr). cbn [dict_has]. rewrite dmem_get, Hcr. unfold mbind at 1. rewrite (member_obj strx rec w r rits _ _ _ Vr Hcr Vcr). unfold mbind at 1. rewrite Eb, Rs.
        unfold mbind at 1. rewrite (schema_at_ok _ _ _ Hx). unfold mbind at 1, add_schema. cbn [w_heap w_schemas w_store]. unfold mbind at 1. unfold store_add. unfold mbind at 1, lift. rewrite Ab'. reflexivity.
  Qed.

  Lemma own_refused w a its d par key pth r root x e : hget (w_heap w) a = Some (Node (PObj its) par key) -> texts (w_heap w) its d ->
    nth_error (w_schemas w) s = Some x -> node_path (w_heap w) a = Ok pth -> node_root (w_heap w) a = Ok r ->
    (par = None <-> pth = []) -> (par <> None -> r <> a /\ root_id (w_heap w) r root /\ bare (w_heap w) r root) -> bad_object auth root pth d e ->
    (par = None -> forall t, id_member d = Some (VStr t) -> unknown (w_store w) t) ->
    exists w', ev (fun rec => apply_kws auth strx fetch rec core s a) w w' (Raise e).
  Proof.
    intros Ha T Hx Hp Hr Hpar Hroot Ho Un.
    assert (V : val (w_heap w) a (PObj its)) by (eexists; split; [exact Ha|reflexivity]).
    destruct Ho as [t e Er E|t v e Er E Ep|t e Er Oa Ei Hb].
    - destruct (texts_some _ _ _ _ _ T Er) as (c & Hc & Vc). exists w. unfold core. cbn [apply_kws].
      eapply ev_bind; [apply ev_pure; intro rec; apply (any_has_obj rec w a its _ V)|]. cbn [kw_names existsb]. rewrite dmem_get, Hc. cbn [orb].
      apply ev_bind_raise. apply ev_pure. intro rec. cbn [apply_kw]. unfold apply_ref. unfold mbind at 1. rewrite (member_obj strx rec w a its _ _ _ V Hc Vc). unfold mbind at 1, lift. rewrite E. reflexivity.
    - destruct (texts_some _ _ _ _ _ T Er) as (c & Hc & Vc). exists w. unfold core. cbn [apply_kws].
      eapply ev_bind; [apply ev_pure; intro rec; apply (any_has_obj rec w a its _ V)|]. cbn [kw_names existsb]. rewrite dmem_get, Hc. cbn [orb].
      apply ev_bind_raise. apply ev_pure. intro rec. cbn [apply_kw]. unfold apply_ref. unfold mbind at 1. rewrite (member_obj strx rec w a its _ _ _ V Hc Vc). unfold mbind at 1, lift. rewrite E.
      unfold mbind at 1. rewrite Ep. reflexivity.
    - pose proof (texts_none _ _ _ _ T Er) as Nr.
      assert (S : exists w1, (forall rec, apply_kws auth strx fetch rec core s a w = apply_kws auth strx fetch rec [AKId] s a w1) /\
        w_heap w1 = hset (w_heap w) a (PObj (ddel (u "$anchor") its)) /\ w_store w1 = w_store w /\ exists x1, nth_error (w_schemas w1) s = Some x1).
      { destruct Oa as [Na|[ta Ea]].
        - pose proof (texts_none _ _ _ _ T Na) as Na'. exists w. split; [|split; [|split; [reflexivity|eauto]]].
          + intro rec. unfold core. cbn [apply_kws]. unfold mbind at 1. rewrite (any_has_obj rec w a its _ V). cbn [kw_names existsb]. rewrite dmem_get, Nr. cbn [orb]. unfold mbind at 1. cbn [ret].
            unfold mbind at 1. rewrite (any_has_obj rec w a its _ V). cbn [kw_names existsb]. rewrite dmem_get, Na'. cbn [orb]. reflexivity.
          + rewrite ddel_absent by (rewrite dmem_get, Na'; reflexivity). symmetry. apply hset_same, V.
        - destruct (texts_some _ _ _ _ _ T Ea) as (c & Hc & Vc).
          exists (World (hset (w_heap w) a (PObj (ddel (u "$anchor") its))) (upd (w_schemas w) s (fun x => Schema (s_value x) (s_ready x) (s_voc x) (dset ta a (s_anchors x)) (s_id x))) (w_store w)).
          split; [|split; [reflexivity|split; [reflexivity|cbn [w_schemas]; rewrite nth_upd, Nat.eqb_refl, Hx; cbn; eauto]]].
          intro rec. unfold core. cbn [apply_kws]. unfold mbind at 1. rewrite (any_has_obj rec w a its _ V). cbn [kw_names existsb]. rewrite dmem_get, Nr. cbn [orb]. unfold mbind at 1. cbn [ret].
          unfold mbind at 1. rewrite (any_has_obj rec w a its _ V). cbn [kw_names existsb]. rewrite dmem_get, Hc. cbn [orb apply_kw]. unfold mbind at 1. unfold apply_anchor. unfold mbind at 1.
          rewrite (member_obj strx rec w a its _ _ _ V Hc Vc). unfold mbind at 1. rewrite (schema_at_ok _ _ _ Hx). unfold mbind at 1, set_schema. cbn [w_heap w_schemas w_store].
          unfold mbind at 1, node_at. cbn [w_heap]. rewrite Ha. cbn [n_val]. unfold mbind at 1, set_value. cbn [w_heap w_schemas w_store]. unfold ret at 1, upd. rewrite Hx. reflexivity. }
      destruct S as (w1 & S1 & S2 & S3 & x1 & Hx1).
      assert (SL : same_links (w_heap w) (w_heap w1)) by (rewrite S2; apply same_links_hset).
      assert (Len : length (w_heap w1) = length (w_heap w)) by (rewrite S2; apply hset_length).
      assert (E : id_member (ddel (u "$anchor") d) = id_member d) by (unfold id_member; rewrite !dget_ddel_other by discriminate; reflexivity).
      destruct (id_refused w1 a (ddel (u "$anchor") its) (ddel (u "$anchor") d) par key pth r root x1 t e) as (w2 & R1).
      + rewrite S2, hget_hset, Nat.eqb_refl, Ha. reflexivity.
      + apply texts_ddel. eapply texts_impl; [|exact T]. intros y t' Vy. rewrite S2. eapply str_hset; eassumption.
      + exact Hx1.
      + unfold node_path in *. rewrite Len. eapply keys_up_same; eassumption.
      + unfold node_root in *. rewrite Len. eapply root_up_same; eassumption.
      + exact Hpar.
      + intro Np. destruct (Hroot Np) as (Nr' & (rits & Vr & M) & Br).
        assert (Fr : forall z, val (w_heap w) r z -> val (w_heap w1) r z) by (intros z (m & Hm & Em); exists m; split; [|exact Em]; rewrite S2, hget_hset; destruct (Nat.eqb_spec a r); [congruence|exact Hm]).
        split; [|intro R; destruct (Br R) as (ri & Vi & Ni); exists ri; auto]. exists rits. split; [auto|].
        destruct root as [rt|]; [|exact I]. destruct M as (c & Hc & Vc). exists c. split; [exact Hc|]. rewrite S2. eapply str_hset; eassumption.
      + rewrite E. exact Ei.
      + exact Hb.
      + rewrite S3. intro Pn. exact (Un Pn t Ei).
      + exists w2. apply ev_pure. intro rec. rewrite S1. apply R1.
  Qed.

  (** ids below the root are absolute *)
  Definition absolute_key (k : pystr) : Prop := exists v, key_of auth v = Ok k /\ is_absolute auth v = Ok true.
  Lemma own_absolute root a pth d o : own auth root a pth d o -> forall e, In e o -> match e with DReg k _ _ | DRoot k _ => absolute_key k | _ => True end.
  Proof.
    intros [t v p _ _ _ _|la li _ Oa Oi] e He; [destruct He|]. apply in_app_or in He as [He|He].
    - destruct Oa; [destruct He|]. destruct He as [<-|[]]. exact I.
    - destruct Oi as [N|t v Ei Np Eu Ef Ie|t v k Ei Np Nin Nm Ek|t v k Ei P Eu Ef Ab Ek]; [destruct He|destruct He| |]; (destruct He as [<-|[]]; exists v; split; [assumption|]); [inversion Nm; assumption|assumption].
  Qed.
  Scheme plan_rec := Minimality for plan Sort Prop with plans_rec := Minimality for plans Sort Prop.
  Lemma plans_absolute root a b pth d l : plans auth root a b pth d l -> forall e, In e l -> match e with DReg k _ _ | DRoot k _ => absolute_key k | _ => True end.
  Proof.
    intro P. refine (plans_rec auth root (fun _ _ _ l => forall e, In e l -> match e with DReg k _ _ | DRoot k _ => absolute_key k | _ => True end)
      (fun _ _ _ _ l => forall e, In e l -> match e with DReg k _ _ | DRoot k _ => absolute_key k | _ => True end) _ _ _ _ a b pth d l P).
    - intros. contradiction.
    - intros a0 pth0 d0 ls o _ IH Ho e He. apply in_app_or in He as [He|He]; [exact (IH e He)|]. exact (own_absolute _ _ _ _ _ Ho e He).
    - intros. contradiction.
    - intros a0 b0 pth0 k x d0 l0 ls _ IH1 _ IH2 e He. apply in_app_or in He as [He|He]; [exact (IH1 e He)|exact (IH2 e He)].
  Qed.
  Lemma done_store l : forall acc k, dmem k (snd (fold_left (done s) l acc)) = true -> dmem k (snd acc) = true \/ exists e, In e l /\ match e with DReg k' _ _ | DRoot k' _ => k' = k | _ => False end.
  Proof.
    induction l as [|e l IH]; intros [ss st] k H; cbn [fold_left] in H; [auto|].
    destruct (IH _ _ H) as [K|(e' & He & Ke)]; [|right; exists e'; split; [right; exact He|exact Ke]].
    destruct e as [t a|k' v a|k' v]; cbn [done snd] in *; [auto| |].
    - rewrite dmem_set in K. destruct (str_eqb_spec k k') as [->|]; cbn [orb] in K; [right; exists (DReg k' v a); split; [left|]; reflexivity|auto].
    - destruct (dmem k' st) eqn:Ek; [auto|]. rewrite dmem_set in K. destruct (str_eqb_spec k k') as [->|]; cbn [orb] in K; [right; exists (DRoot k' v); split; [left|]; reflexivity|auto].
  Qed.
  Lemma key_absolute a b k : key_of auth a = Ok k -> key_of auth b = Ok k -> is_absolute auth a = is_absolute auth b.
  Proof. unfold key_of, is_absolute, base_uri, copy_with. cbn. intros [= <-] [= E]. rewrite E. reflexivity. Qed.
  Lemma unknown_later w w' b n l t root a bb pth d : effect s w w' b n l -> plans auth root a bb pth d l -> unknown (w_store w) t -> unknown (w_store w') t.
  Proof.
    intros E P U v k Hv Hk Ha. destruct (dmem k (w_store w')) eqn:D; [exfalso|reflexivity].
    pose proof (done_store l (w_schemas w, w_store w) k) as Q. rewrite <- (e_regs _ _ _ _ _ _ E) in Q. cbn [snd] in Q. destruct (Q D) as [K|(e & He & Ke)]; [rewrite (U v k Hv Hk Ha) in K; discriminate|].
    pose proof (plans_absolute _ _ _ _ _ _ P e He) as A. destruct e as [|k' v' a'|k' v']; [contradiction| |]; subst k'; destruct A as (v1 & A1 & A2); rewrite (key_absolute _ _ _ A1 Hk) in A2; congruence.
  Qed.

  Lemma process_refused root v pth e : spoiled auth root pth v e -> forall w base par key r, placed (w_heap w) base (wrap base par key v) ->
    env w base pth root r -> start s w base par pth root -> (par = None -> forall d t, v = VDict d -> id_member d = Some (VStr t) -> unknown (w_store w) t) ->
    exists w', Runs (CProcess s base) w w' (Raise e).
  Proof.
    induction 1 as [pth d e Fd Hb|pth d1 k x d2 e F1 Sp IH]; intros w base par key r P Ev St Un.
    - rewrite wrap_dict in *. apply placed_cons in P as [P1 P2]. set (its := fst (wrap_items base (S base) d)) in *.
      destruct (fit_plans root pth d base (S base) Fd) as [ls Pls].
      destruct (members_done root base pth r d (S base) ls w ltac:(lia) P2 Ev Pls) as (w1 & its' & R1 & E1 & L1). fold its in R1.
      pose proof (e_len _ _ _ _ _ _ E1) as Len1.
      assert (Lb : base < length (w_heap w)) by (apply hget_lt in P1; exact P1).
      assert (Hb1 : hget (w_heap w1) base = Some (Node (PObj its) par key)).
      { rewrite (e_frame _ _ _ _ _ _ E1); [exact P1|exact Lb|lia]. }
      set (w2 := World (hset (w_heap w1) base (PObj its')) (w_schemas w1) (w_store w1)).
      assert (Hb2 : hget (w_heap w2) base = Some (Node (PObj its') par key)) by (cbn [w2 w_heap]; rewrite hget_hset, Nat.eqb_refl, Hb1; reflexivity).
      assert (Ag : forall y, y <> base -> hget (w_heap w2) y = hget (w_heap w1) y).
      { intros y Ny. cbn [w2 w_heap]. rewrite hget_hset. destruct (Nat.eqb_spec base y); [congruence|reflexivity]. }
      assert (F2 : Forall2 (fun ka kx => fst ka = fst kx /\ loaded auth (w_heap w2) s (snd ka) (snd kx)) its' d).
      { apply (L1 (w_heap w2)). intros y Hy. apply Ag. lia. }
      assert (T2 : texts (w_heap w2) its' d).
      { eapply Forall2_mono; [|exact F2]. intros [k1 a1] [k2 x2] [E V]. split; [exact E|]. cbn [snd] in *. intros t ->. inversion V as [? ? ? Hv|? ? ? ?|]; subst. inversion Hv; subst. assumption. }
      pose proof (env_effect _ _ _ _ _ _ _ _ _ Ev E1 ltac:(lia)) as Ev1. destruct Ev1 as [(x1 & Hx1 & Vx1 & Rx1) K1 Kr1 I1 B1 Le1].
      assert (SL : same_links (w_heap w1) (w_heap w2)) by (cbn [w2 w_heap]; apply same_links_hset).
      assert (Len2 : length (w_heap w2) = length (w_heap w1)) by (cbn [w2 w_heap]; apply hset_length).
      assert (Hr0 : (par = None -> r = base /\ pth = []) /\ (par <> None -> pth <> [] /\ r <> base)).
      { destruct St as (_ & Kp & r' & Kr & Hrb & Hrn & _). pose proof (v_root _ _ _ _ _ Ev) as Kr'. assert (r' = r) as -> by congruence.
        cbn [keys_up root_up] in Kp, Kr. rewrite P1 in Kp, Kr. cbn [n_parent] in *. destruct par as [q|]; split; try congruence; [|intros _; split; congruence].
        intros _. split; [|specialize (Hrn ltac:(discriminate)); lia]. intros ->. destruct (keys_up base (w_heap w) q) as [ks|e0|]; try discriminate. destruct ks; discriminate. }
      destruct (own_refused w2 base its' d par key pth r root x1 e) as (w3 & R3).
      + exact Hb2.
      + exact T2.
      + exact Hx1.
      + unfold node_path. apply (keys_up_more _ (S base)); [eapply keys_up_same; eassumption|discriminate|lia].
      + unfold node_root. apply (root_up_more _ (S base)); [eapply root_up_same; eassumption|discriminate|lia].
      + split; [intro E; apply (proj1 Hr0 E)|]. intro E. destruct par; [|reflexivity]. destruct (proj1 (proj2 Hr0 ltac:(discriminate)) E).
      + intro Np. destruct (proj2 Hr0 Np) as [_ Nr]. split; [exact Nr|].
        assert (Fr : forall z, val (w_heap w1) r z -> val (w_heap w2) r z) by (intros z (m & Hm & Em); exists m; split; [rewrite Ag by exact Nr; exact Hm|exact Em]).
        split; [|intro R; destruct (B1 R) as (ri & Vi & Ni); exists ri; auto]. destruct I1 as (rits & Vr & M). exists rits. split; [auto|].
        destruct root as [rt|]; [|exact I]. destruct M as (c & Hc & Vc). exists c. split; [exact Hc|]. eapply str_hset; [|exact Vc]. eexists; split; [exact Hb1|reflexivity].
      + exact Hb.
      + intros Pn t Ht. cbn [w2 w_store]. eapply unknown_later; [exact E1|exact Pls|]. exact (Un Pn d t eq_refl Ht).
      + exists w3. apply ev_step. cbn [Doc.step]. unfold process. assert (V0 : val (w_heap w) base (PObj its)) by (eexists; split; [exact P1|reflexivity]).
        eapply ev_bind; [apply (runs_type _ _ _ _ w base _ V0 eq_refl)|]. cbn [kind_of].
        eapply ev_bind; [apply ev_pure; intro rec; apply (items_obj rec w base its V0)|].
        eapply ev_bind; [exact R1|]. eapply ev_known; [apply node_at_ok, Hb1|]. cbn [n_val].
        eapply ev_known; [reflexivity|]. fold w2. eapply ev_known; [apply schema_at_ok; exact Hx1|]. rewrite Vx1. exact R3.
    - rewrite wrap_dict in *. apply placed_cons in P as [P1 P2]. destruct (fit_plans root pth d1 base (S base) F1) as [ls Pls].
      destruct (members_refused root base pth r k x d2 e) with (d1 := d1) (b := S base) (ls := ls) (w := w) as (w' & R).
      + intros w0 b par0 P0 Ev0 St0 Np. eapply IH; try eassumption. intro C. contradiction.
      + lia.
      + exact P2.
      + exact Ev.
      + exact Pls.
      + exists w'. apply ev_step. cbn [Doc.step]. unfold process. assert (V0 : val (w_heap w) base (PObj (fst (wrap_items base (S base) (d1 ++ (k, x) :: d2))))) by (eexists; split; [exact P1|reflexivity]).
        eapply ev_bind; [apply (runs_type _ _ _ _ w base _ V0 eq_refl)|]. cbn [kind_of].
        eapply ev_bind; [apply ev_pure; intro rec; apply (items_obj rec w base _ V0)|]. apply ev_bind_raise. exact R.
  Qed.
End Refuse.

(** ** Whole documents *)
Section Document.
  Variables (auth : pystr -> option authority) (dig : N -> option Z) (strx : heap -> addr -> pystr) (fetch : uri -> res pv).
  Notation ev := (ev auth dig strx fetch).
  (** The core keywords of an object hold texts; its reference, if a URI at all,
      stays in the document, and comes without anchor or id. *)
  Definition plain_object (d : list (pystr * pv)) : Prop :=
    (dget (u "$ref") d = None /\ (dget (u "$anchor") d = None \/ exists t, dget (u "$anchor") d = Some (VStr t)) /\ (id_member d = None \/ exists t, id_member d = Some (VStr t))) \/
    (exists t, dget (u "$ref") d = Some (VStr t) /\ (forall v b, mk_uri auth t = Ok v -> base_uri auth v = Ok b -> uri_bool b = false) /\ dget (u "$anchor") d = None /\ id_member d = None).
  Inductive plain : pv -> Prop :=
  | pl_leaf v : (forall d, v <> VDict d) -> plain v
  | pl_dict d : plain_object d -> Forall (fun kx => plain (snd kx)) d -> plain (VDict d).

  Lemma mk_uri_cases t : (exists v, mk_uri auth t = Ok v) \/ mk_uri auth t = Raise EAttr.
  Proof. unfold mk_uri, mk_authority. destruct (re_match uri_regex t) as [cs|]; [|auto]. destruct (auth (got 2 cs)); cbn; eauto. Qed.
  Lemma pointer_cases t : (exists p, pointer_parse t = Ok p) \/ pointer_parse t = Raise EValue.
  Proof. unfold pointer_parse. destruct (re_fullmatch pointer_regex t); eauto. Qed.
  Lemma resolve_total b v : exists v', resolve auth b v = Ok v'.
  Proof.
    assert (C : forall x q1 q2 q3, exists v', copy_with auth x None None q1 q2 q3 = Ok v') by (intros; unfold copy_with; cbn; eauto).
    unfold resolve. destruct (is_absolute_total auth v) as [ab ->]. cbn [bind]. destruct ab; [apply C|]. destruct (u_path v) as [|n p]; [apply C|]. destruct (startswith (u "/") (n :: p)); apply C.
  Qed.
  Lemma key_total v : exists k, key_of auth v = Ok k.
  Proof. unfold key_of, base_uri, copy_with. cbn. eauto. Qed.
  Lemma id_cases root pth t : let d := [(u "$id", VStr t)] in fit_id auth root pth d \/ exists e, (e = EValue \/ e = EAttr) /\ bad_id auth root pth t e.
  Proof.
    cbv zeta. destruct (mk_uri_cases t) as [[v Hv]|He]; [|right; exists EAttr; split; [auto|]; apply bi_text, He].
    destruct (u_frag v) as [|c f] eqn:F; [|right; exists EValue; split; [auto|]; eapply bi_fragment; [exact Hv|congruence]].
    destruct (key_total v) as [k Hk]. destruct (is_absolute_total auth v) as [ab Hab].
    destruct pth as [|p0 pth'] eqn:Ep.
    - destruct ab; [|right; exists EValue; split; [auto|]; eapply bi_root; eauto]. left. right. exists t. split; [reflexivity|]. right. right. split; [reflexivity|]. eauto 8.
    - assert (N : pth <> []) by congruence. rewrite <- Ep in *. clear Ep p0 pth'. destruct (str_mem (u "enum") pth) eqn:E.
      + left. right. exists t. split; [reflexivity|]. left. split; [exact N|]. split; [apply str_mem_In, E|eauto].
      + assert (E' : ~ In (u "enum") pth) by (intro C; apply str_mem_In in C; congruence).
        destruct ab; [left; right; exists t; split; [reflexivity|]; right; left; split; [exact N|]; split; [exact E'|]; exists v, k; split; [apply n_abs; assumption|exact Hk]|].
        destruct root as [rt|]; [|right; exists EValue; split; [auto|]; eapply bi_alone; eauto].
        destruct (mk_uri_cases rt) as [[b Hb]|He]; [|right; exists EAttr; split; [auto|]; eapply bi_base; eauto].
        destruct (resolve_total b v) as [v' Hr]. destruct (is_absolute_total auth v') as [[|] Ha]; [|right; exists EValue; split; [auto|]; eapply bi_still; eauto].
        destruct (key_total v') as [k' Hk']. left. right. exists t. split; [reflexivity|]. right. left. split; [exact N|]. split; [exact E'|]. exists v', k'. split; [eapply n_rel; eauto|exact Hk'].
  Qed.
  Lemma object_cases root pth d : plain_object d -> fit_object auth root pth d \/ exists e, (e = EValue \/ e = EAttr) /\ bad_object auth root pth d e.
  Proof.
    intros [(Er & A & I)|(t & Er & L & A & I)].
    - destruct I as [I|[t I]]; [left; right; split; [exact Er|]; split; [exact A|left; exact I]|].
      destruct (id_cases root pth t) as [[C|(t' & C & H)]|(e & He & H)].
      + discriminate.
      + injection C as <-. left. right. split; [exact Er|]. split; [exact A|]. right. exists t. split; [exact I|exact H].
      + right. exists e. split; [exact He|]. eapply bo_id; eassumption.
    - destruct (mk_uri_cases t) as [[v Hv]|He]; [|right; exists EAttr; split; [auto|]; eapply bo_ref; eassumption].
      destruct (pointer_cases (u_frag v)) as [[p Hp]|He]; [|right; exists EValue; split; [auto|]; eapply bo_pointer; eassumption].
      left. left. exists t, v, p. split; [exact Er|]. split; [|auto]. split; [exact Hv|]. split; [exact Hp|].
      assert (exists b, base_uri auth v = Ok b) as [b Hb] by (unfold base_uri, copy_with; cbn; eauto). exists b. split; [exact Hb|]. eapply L; eassumption.
  Qed.
  Lemma plain_cases root v : forall pth, plain v -> fit auth root pth v \/ exists e, (e = EValue \/ e = EAttr) /\ spoiled auth root pth v e.
  Proof.
    induction v as [v Hl Hd|l IH|d IH] using pv_ind_deep; intros pth P.
    - left. apply fit_leaf. exact Hd.
    - left. apply fit_leaf. discriminate.
    - inversion P as [? C|? Po Pd]; subst; [destruct (C d eq_refl)|].
      assert (K : Forall (fun kx => fit auth root (pth ++ [fst kx]) (snd kx)) d \/ exists d1 k x d2 e, d = d1 ++ (k, x) :: d2 /\ Forall (fun kx => fit auth root (pth ++ [fst kx]) (snd kx)) d1 /\ (e = EValue \/ e = EAttr) /\ spoiled auth root (pth ++ [k]) x e).
      { clear P Po. induction IH as [|[k x] d I1 _ IHd]; [left; constructor|]. inversion Pd as [|? ? P1 P2]; subst. cbn [snd] in *.
        destruct (I1 (pth ++ [k]) P1) as [F|(e & He & Sp)]; [|right; exists [], k, x, d, e; split; [reflexivity|]; split; [constructor|auto]].
        destruct (IHd P2) as [Fd|(d1 & k' & x' & d2 & e & -> & F1 & He & Sp)]; [left; constructor; assumption|]. right. exists ((k, x) :: d1), k', x', d2, e. split; [reflexivity|]. split; [constructor; assumption|auto]. }
      destruct K as [F|(d1 & k & x & d2 & e & -> & F1 & He & Sp)]; [|right; exists e; split; [exact He|]; apply sp_below; assumption].
      destruct (object_cases root pth d Po) as [Fo|(e & He & Hb)]; [left; apply fit_dict; assumption|]. right. exists e. split; [exact He|]. apply sp_own; assumption.
  Qed.

  (** The first bad object stops the load, with its exception. *)
  Theorem C88_refused w d s w0 e : opened w (VDict d) s w0 -> (id_member d = None \/ exists t, id_member d = Some (VStr t)) ->
    (forall t, id_member d = Some (VStr t) -> unknown auth (w_store w) t) -> spoiled auth (id_of (VDict d)) [] (VDict d) e ->
    exists w', ev (fun rec => load rec s) w0 w' (Raise e).
  Proof.
    intros O Tx Un Sp. destruct (opened_dict _ _ _ _ O) as (-> & Es & Ess & Eh). set (s := length (w_schemas w)) in *. set (r := length (w_heap w)) in *.
    assert (Hs : nth_error (w_schemas w0) s = Some (fresh r core)) by (rewrite Ess, nth_error_app2, Nat.sub_diag by (unfold s; lia); reflexivity).
    assert (Pl : placed (w_heap w0) r (wrap r None [] (VDict d))) by (rewrite Eh; apply placed_end).
    destruct (placed_head _ _ _ _ _ Pl) as (n & Hn & Ep & Ek).
    assert (K1 : keys_up (S r) (w_heap w0) r = Ok []) by (cbn [keys_up]; rewrite Hn, Ep; reflexivity).
    assert (K2 : root_up (S r) (w_heap w0) r = Ok r) by (cbn [root_up]; rewrite Hn, Ep; reflexivity).
    assert (Ri : root_id (w_heap w0) r (id_of (VDict d)) /\ bare (w_heap w0) r (id_of (VDict d))).
    { pose proof (wrap_holds _ _ _ _ _ Pl) as H. inversion H as [| | | | | | |? ? its V F]; subst.
      assert (T : texts (w_heap w0) its d) by (eapply Forall2_mono; [|exact F]; intros [k1 a1] [k2 x2] [E1 E2]; split; [exact E1|]; cbn [snd] in *; intros t ->; inversion E2; assumption).
      pose proof (texts_id _ _ _ T) as Ti. cbn [id_of]. destruct Tx as [Tx|[t Tx]]; rewrite Tx in *; (split; [exists its; split; [exact V|try exact I; exact Ti]|]); [|discriminate].
      intros _. exists its. split; [exact V|exact Ti]. }
    destruct Ri as [Ri Rb].
    assert (X : exists x, nth_error (w_schemas w0) s = Some x /\ s_voc x = core /\ s_ready x = false) by (eexists; split; [exact Hs|split; reflexivity]).
    destruct (process_refused auth dig strx fetch s (id_of (VDict d)) (VDict d) [] e Sp w0 r None [] r Pl) as (w' & R).
    - constructor; auto.
    - split; [exact X|]. split; [exact K1|]. exists r. split; [exact K2|]. split; [lia|]. split; [congruence|exact Ri].
    - intros _ d' t [= <-] Ht. rewrite Es. apply Un, Ht.
    - exists w'. unfold load. eapply ev_known; [apply schema_at_ok, Hs|]. cbn [s_ready fresh s_value]. apply ev_bind_raise. exact R.
  Qed.
  (** A document either has only usable identifiers and references, and loads, or
      it has a bad one, and loading raises ValueError or AttributeError. *)
  Theorem C88_loads w d s w0 : opened w (VDict d) s w0 -> plain (VDict d) -> (forall t, id_member d = Some (VStr t) -> unknown auth (w_store w) t) ->
    (fit auth (id_of (VDict d)) [] (VDict d) /\ exists w' x, ev (fun rec => load rec s) w0 w' (Ok tt) /\ nth_error (w_schemas w') s = Some x /\ s_ready x = true /\ loaded auth (w_heap w') s (s_value x) (VDict d)) \/
    (~ fit auth (id_of (VDict d)) [] (VDict d) /\ exists e w', (e = EValue \/ e = EAttr) /\ spoiled auth (id_of (VDict d)) [] (VDict d) e /\ ev (fun rec => load rec s) w0 w' (Raise e)).
  Proof.
    intros O P Un.
    assert (A : forall F : fit auth (id_of (VDict d)) [] (VDict d), exists w' x, ev (fun rec => load rec s) w0 w' (Ok tt) /\ nth_error (w_schemas w') s = Some x /\ s_ready x = true /\ loaded auth (w_heap w') s (s_value x) (VDict d)).
    { intro F. destruct (fit_plan auth _ _ (length (w_heap w)) _ F) as [l Pl]. destruct (load_document auth dig strx fetch w d s w0 l O Pl) as (w' & x & R & H1 & H2 & _ & H3 & _). exists w', x. auto. }
    destruct (plain_cases (id_of (VDict d)) (VDict d) [] P) as [F|(e & He & Sp)]; [left; auto|]. right.
    destruct (C88_refused w d s w0 e O) as (w' & R); [inversion P as [? C|? [(_ & _ & I)|(t & _ & _ & _ & I)] _]; subst; [destruct (C d eq_refl)|exact I|left; exact I]|exact Un|exact Sp|].
    split; [|exists e, w'; auto]. intro F. destruct (A F) as (w1 & x & R1 & _). destruct (ev_det _ _ _ _ _ _ _ _ _ _ R R1) as [_ C]. discriminate.
  Qed.

  (** ** Other values *)
  (** A schema is an object or an array: anything else is refused at once, and changes nothing. *)
  Theorem C88_kinds w v voc : match v with
    | VDict _ | VList _ => exists w' s x, make_schema v voc w = (w', Ok s) /\ nth_error (w_schemas w') s = Some x /\ s_voc x = voc /\ s_ready x = false /\ holds (w_heap w') (s_value x) v /\
        w_store w' = w_store w /\ (forall i y, nth_error (w_schemas w) i = Some y -> nth_error (w_schemas w') i = Some y) /\ (forall a n, hget (w_heap w) a = Some n -> hget (w_heap w') a = Some n)
    | _ => make_schema v voc w = (w, Raise EValue)
    end.
  Proof.
    destruct v; try reflexivity; (eexists _, _, _; split; [reflexivity|]; cbn [w_schemas w_heap w_store]; split; [rewrite nth_error_app2, Nat.sub_diag by lia; reflexivity|];
      split; [reflexivity|]; split; [reflexivity|]; split; [eapply wrap_holds; apply placed_end|]; split; [reflexivity|]; split; [intros i y H; rewrite nth_error_app1; [exact H|apply nth_error_Some; congruence]|intros a n H; apply hget_app1, H]).
  Qed.
  (** An array is left as it is: nothing in it is a reference, an anchor or an id. *)
  Theorem C88_array w l s w0 : opened w (VList l) s w0 -> exists w' x, ev (fun rec => load rec s) w0 w' (Ok tt) /\ nth_error (w_schemas w') s = Some x /\ s_ready x = true /\ s_anchors x = [] /\ s_id x = None /\
    holds (w_heap w') (s_value x) (VList l) /\ w_store w' = w_store w /\ w_heap w' = w_heap w0 /\ (forall i, i <> s -> nth_error (w_schemas w') i = nth_error (w_schemas w0) i).
  Proof.
    intro O. pose proof (C88_kinds w (VList l) core) as (w1 & s1 & x & E & Hx & V & R & H & S & _). unfold opened in O. rewrite O in E. injection E as <- <-.
    assert (Fx : x = fresh (s_value x) core).
    { unfold opened, make_schema, mbind, wrap_new, new, add_schema in O. injection O as <- <-. cbn [w_schemas] in Hx. rewrite nth_error_app2, Nat.sub_diag in Hx by lia. injection Hx as <-. reflexivity. }
    exists (World (w_heap w0) (lput (w_schemas w0) s (Schema (s_value x) true core [] None)) (w_store w0)), (Schema (s_value x) true core [] None). cbn [w_schemas w_heap w_store s_ready s_anchors s_id s_value].
    split; [|split; [rewrite nth_lput, Nat.eqb_refl, Hx; reflexivity|]; split; [reflexivity|]; split; [reflexivity|]; split; [reflexivity|]; split; [exact H|]; split; [exact S|]; split; [reflexivity|]; intros i Ni; rewrite nth_lput; destruct (Nat.eqb_spec s i); congruence].
    unfold load. eapply ev_known; [apply schema_at_ok, Hx|]. rewrite R. eapply ev_bind with (w1 := w0) (a := s_value x).
    - apply ev_step. cbn [Doc.step]. unfold process. inversion H as [| | | | | |? ? els Va F|]; subst. eapply ev_bind; [apply (runs_type _ _ _ _ w0 _ _ Va eq_refl)|]. apply ev_ret.
    - eapply ev_known; [apply schema_at_ok, Hx|]. rewrite Fx. apply ev_pure. reflexivity.
  Qed.
End Document.

(** ** Documents that are refused *)
Local Notation D l := (VDict (map (fun kv => (u (fst kv), snd kv)) l)) (only parsing).
Local Notation S_ x := (VStr (u x)) (only parsing).
Definition empty_world : world := World [] [] [].
(** the member "b" is fine, then "c" has a relative id, and the root has none *)
Definition C88_alone : pv := D [("b", D [("$id", S_ "http://h/b.json"); ("minimum", VInt 3)]); ("c", D [("$id", S_ "c.json")])]%string.
(** the root's own id is relative *)
Definition C88_relative : pv := D [("$id", S_ "a/b.json"); ("x", D [("$anchor", S_ "n")])]%string.
(** an id with a fragment, inside an enum as elsewhere *)
Definition C88_fragment : pv := D [("enum", D [("x", D [("id", S_ "http://h/b#c")])])]%string.
(** a reference that is no pointer *)
Definition C88_pointer : pv := D [("x", D [("$ref", S_ "#/a~2")])]%string.
Ltac leaf := apply fit_leaf; discriminate.
Example C88_some_refused :
  spoiled toy (id_of C88_alone) [] C88_alone EValue /\ spoiled toy (id_of C88_relative) [] C88_relative EValue /\
  spoiled toy (id_of C88_fragment) [] C88_fragment EValue /\ spoiled toy (id_of C88_pointer) [] C88_pointer EValue.
Proof.
  repeat split.
  - apply (sp_below toy _ [] [(u "b", _)] (u "c")).
    + constructor; [|constructor]. apply fitb_ok. vm_compute. reflexivity.
    + apply sp_own; [constructor; [leaf|constructor]|]. eapply bo_id; [reflexivity|left; reflexivity|reflexivity|].
      eapply bi_alone; [discriminate|apply str_mem_false; reflexivity|vm_compute; reflexivity|reflexivity|vm_compute; reflexivity|reflexivity].
  - apply sp_own; [constructor; [leaf|constructor; [|constructor]]; apply fitb_ok; vm_compute; reflexivity|]. eapply bo_id; [reflexivity|left; reflexivity|reflexivity|].
    eapply bi_root; [reflexivity|vm_compute; reflexivity|reflexivity|vm_compute; reflexivity].
  - apply (sp_below toy _ [] [] (u "enum")); [constructor|]. apply (sp_below toy _ [u "enum"] [] (u "x")); [constructor|].
    apply sp_own; [constructor; [leaf|constructor]|]. eapply bo_id; [reflexivity|left; reflexivity|reflexivity|]. eapply bi_fragment; [vm_compute; reflexivity|discriminate].
  - apply (sp_below toy _ [] [] (u "x")); [constructor|]. apply sp_own; [constructor; [leaf|constructor]|]. eapply bo_pointer; [reflexivity|vm_compute; reflexivity|vm_compute; reflexivity].
Qed.
Lemma unknown_empty auth t : unknown auth [] t.
Proof. intros v k _ _ _. reflexivity. Qed.
Example C88_some_plain : plain toy C88_alone /\ plain toy C48_value.
Proof.
  assert (L : forall v, (match v with VDict _ => false | _ => true end) = true -> plain toy v) by (intros v H; apply pl_leaf; intros d ->; discriminate).
  assert (P : forall d, dget (u "$ref") d = None -> (dget (u "$anchor") d = None \/ exists t, dget (u "$anchor") d = Some (VStr t)) -> (id_member d = None \/ exists t, id_member d = Some (VStr t)) ->
    Forall (fun kx => plain toy (snd kx)) d -> plain toy (VDict d)) by (intros d H1 H2 H3 H4; apply pl_dict; [left; auto|exact H4]).
  split; unfold C88_alone, C48_value; cbn [map fst snd].
  - repeat first [apply L; reflexivity | apply P; [reflexivity|first [left; reflexivity|right; eexists; reflexivity]|first [left; reflexivity|right; eexists; reflexivity]|] | apply Forall_cons; cbn [snd] | apply Forall_nil].
  - repeat first [apply L; reflexivity | apply P; [reflexivity|first [left; reflexivity|right; eexists; reflexivity]|first [left; reflexivity|right; eexists; reflexivity]|] | apply Forall_cons; cbn [snd] | apply Forall_nil].
    apply pl_dict; [|constructor; [apply L; reflexivity|constructor]]. right. exists (u "#/defs/x"). split; [reflexivity|]. split; [|split; reflexivity].
    intros v b Hv Hb. vm_compute in Hv. injection Hv as <-. vm_compute in Hb. injection Hb as <-. reflexivity.
Qed.
Print Assumptions C88_loads.
Print Assumptions C88_refused.
Print Assumptions C88_kinds.
Print Assumptions C88_array.
