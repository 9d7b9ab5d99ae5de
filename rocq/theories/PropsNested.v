(** C106: a schema nested under its own id, used through that id. *)
From Verif Require Import PyBase PyBaseFacts PyVal OrderFacts Regex Numbers Uri Pointer PropsPointer Store Validators Heap HeapFacts PropsWrap PropsPlaces PropsUriEx Doc DocMono DocFacts PropsQuery DocLoad PropsLoad DocDocument PropsAnchor.
Local Open Scope nat_scope.
Local Notation length := List.length (only parsing).

Lemma inside_fit auth root v q y : inside v q y -> forall pth, fit auth root pth v -> fit auth root (pth ++ q) y.
Proof.
  induction 1 as [v|d k x p y G _ IH]; intros pth F; [rewrite app_nil_r; exact F|].
  inversion F as [? ? C|? ? _ Fd]; subst; [exfalso; eapply C; reflexivity|]. rewrite Forall_forall in Fd. specialize (Fd (k, x) (dget_In _ _ _ G)). cbn [fst snd] in Fd.
  specialize (IH _ Fd). rewrite <- app_assoc in IH. exact IH.
Qed.
(** the place of a value inside a wrapped one *)
Lemma items_placed h base d k c x : forall b, placed h b (snd (wrap_items base b d)) -> dget k (fst (wrap_items base b d)) = Some c -> dget k d = Some x -> placed h c (wrap c (Some base) k x) /\ b <= c.
Proof.
  induction d as [|[k1 x1] d IH]; intros b P G1 G2; [discriminate|]. rewrite wrap_items_cons in *. cbn [fst snd dget] in *. apply placed_app in P as [Pa Pb]. destruct (str_eqb_spec k k1) as [->|N].
  - injection G1 as <-. injection G2 as <-. auto.
  - destruct (IH _ Pb G1 G2). unfold after in *. split; [assumption|lia].
Qed.
Lemma spot_placed h base v q b z : spot base v q b z -> forall par key pth r, placed h base (wrap base par key v) -> keys_up (S base) h base = Ok pth -> root_up (S base) h base = Ok r ->
  exists par' key', placed h b (wrap b par' key' z) /\ keys_up (S b) h b = Ok (pth ++ q) /\ root_up (S b) h b = Ok r /\ base <= b /\ (q <> [] -> base < b /\ par' <> None).
Proof.
  induction 1 as [base v|base d k c x q b z G1 G2 _ IH]; intros par key pth r P K R.
  - exists par, key. rewrite app_nil_r. repeat split; auto; congruence.
  - rewrite wrap_dict in P. apply placed_cons in P as [P1 P2]. destruct (items_placed _ _ _ _ _ _ _ P2 G1 G2) as [Pc Lc].
    destruct (placed_head _ _ _ _ _ Pc) as (m & Hm & Em1 & Em2).
    assert (Kc : keys_up (S c) h c = Ok (pth ++ [k])) by (cbn [keys_up]; rewrite Hm, Em1, (keys_up_more _ _ _ _ K ltac:(discriminate) c ltac:(lia)), Em2; reflexivity).
    assert (Rc : root_up (S c) h c = Ok r) by (cbn [root_up]; rewrite Hm, Em1; apply (root_up_more _ _ _ _ R); [discriminate|lia]).
    destruct (IH _ _ _ _ Pc Kc Rc) as (par' & key' & Pz & Kz & Rz & Lz & Nz). exists par', key'. rewrite <- app_assoc in Kz. repeat split; auto; try lia.
    destruct (list_eq_dec pystr_eq_dec q []) as [->|Nq]; [|apply Nz, Nq]. intros ->.
    pose proof (placed_head _ _ _ _ _ Pz) as (m' & Hm' & Em' & _). cbn [keys_up] in Kz. rewrite Hm', Em' in Kz. injection Kz as Kz. destruct pth; discriminate.
Qed.

Lemma spot_only h base v q b z : spot base v q b z -> forall par key c, placed h base (wrap base par key v) -> walk h base q c -> c = b.
Proof.
  induction 1 as [base v|base d k e x q b z G1 G2 _ IH]; intros par key c P W.
  - inversion W; reflexivity.
  - rewrite wrap_dict in P. apply placed_cons in P as [P1 P2]. destruct (items_placed _ _ _ _ _ _ _ P2 G1 G2) as [Pe _].
    assert (V : val h base (PObj (fst (wrap_items base (S base) d)))) by (eexists; split; [exact P1|reflexivity]).
    inversion W as [|? d' ? e' ? ? V' G' W'|? l i e' ? ? V' G' W']; subst; pose proof (val_unique _ _ _ _ V V') as E; [|discriminate]. injection E as <-. rewrite G1 in G'. injection G' as <-. eapply IH; eassumption.
Qed.

Lemma spot_quiet base v q b z : spot base v q b z -> quiet v -> quiet z.
Proof.
  induction 1 as [|base d k c x q b z _ G _ IH]; intro Q; [exact Q|]. apply IH. inversion Q as [? C|? _ _ F]; subst; [exfalso; eapply C; reflexivity|]. rewrite Forall_forall in F. exact (F (k, x) (dget_In _ _ _ G)).
Qed.
Lemma done_others s x l : (forall t a, ~ In (DAnchor t a) l) -> (forall k v, ~ In (DRoot k v) l) -> forall ss st, nth_error ss s = Some x -> nth_error (fst (fold_left (done s) l (ss, st))) s = Some x.
Proof.
  induction l as [|e l IH]; intros Na Nr ss st H; [exact H|]. cbn [fold_left]. destruct e as [t a|k v a|k v]; [destruct (Na t a); left; reflexivity| |destruct (Nr k v); left; reflexivity].
  cbn [done]. apply IH; [intros t' a' C; apply (Na t' a'); right; exact C|intros k' v' C; apply (Nr k' v'); right; exact C|]. rewrite nth_error_app1; [exact H|]. apply nth_error_Some. congruence.
Qed.
Lemma inside_app v q y : inside v q y -> forall q' z, inside y q' z -> inside v (q ++ q') z.
Proof. induction 1; intros q' z H'; [exact H'|]. cbn [app]. econstructor; eauto. Qed.

Section Nested.
  Variables (auth : pystr -> option authority) (dig : N -> option Z) (strx : heap -> addr -> pystr) (fetch : uri -> res pv).
  Notation Runs := (Runs auth dig strx fetch).
  Notation ev := (ev auth dig strx fetch).

  Lemma nested_loaded w v s w0 r q x k d : fit_document auth v -> opened w v s w0 -> root_at w0 s r -> gives_id auth v q x -> key_of auth x = Ok k ->
    (forall q' y, gives_id auth v q' y -> key_of auth y = Ok k -> q' = q) -> inside v q (VDict d) -> quiet (VDict d) ->
    exists w' b n par key, ev (fun rec => load rec s) w0 w' (Ok tt) /\ walk (w_heap w0) r q b /\ dget k (w_store w') = Some n /\ nth_error (w_schemas w') n = Some (Schema b false core [] (Some x)) /\
      placed (w_heap w') b (wrap b par key (VDict d)) /\ start n w' b par q (id_of v).
  Proof.
    intros Ft O Rt Gi Kx Un Iq Qd.
    destruct (C50_nested auth dig strx fetch w v s w0 r q x k Ft O Rt Gi Kx Un) as (w' & b & n & L & W & D & Hn).
    destruct Ft as ((d0 & ->) & Ds & Ft). destruct Rt as (x0 & Hx0 & Er). destruct (opened_dict _ _ _ _ O) as (Es & Est & Ess & Eh).
    assert (r = length (w_heap w)) as ->. { subst s. rewrite Ess, nth_error_app2, Nat.sub_diag in Hx0 by lia. injection Hx0 as <-. cbn in Er. auto. }
    destruct (fit_plan auth (id_of (VDict d0)) (VDict d0) (length (w_heap w)) [] Ft) as [l Pl].
    destruct (load_document_full auth dig strx fetch w d0 s w0 l O Pl) as (w1 & x1 & L1 & _ & _ & _ & _ & Sl & _ & _ & Kp & St & Ob & Tx).
    assert (w1 = w') as -> by (destruct (ev_det _ _ _ _ _ _ _ _ _ _ L L1); auto).
    assert (P0 : placed (w_heap w0) (length (w_heap w)) (wrap (length (w_heap w)) None [] (VDict d0))) by (rewrite Eh; apply placed_end).
    destruct (inside_spot _ _ _ Iq (length (w_heap w))) as [b' Sp].
    assert (b' = b) as -> by (symmetry; eapply spot_only; eassumption).
    destruct (placed_head _ _ _ _ _ P0) as (m & Hm & Ep & Ek).
    assert (K0 : keys_up (S (length (w_heap w))) (w_heap w0) (length (w_heap w)) = Ok []) by (cbn [keys_up]; rewrite Hm, Ep; reflexivity).
    assert (R0 : root_up (S (length (w_heap w))) (w_heap w0) (length (w_heap w)) = Ok (length (w_heap w))) by (cbn [root_up]; rewrite Hm, Ep; reflexivity).
    destruct (spot_placed _ _ _ _ _ _ Sp _ _ _ _ P0 K0 R0) as (par & key & Pb & Kb & Rb & Lb & Nb). cbn [app] in Kb.
    assert (Nq : q <> []) by (destruct Gi as (? & ? & _ & _ & _ & N & _); exact N). destruct (Nb Nq) as [Lb' Np].
    exists w', b, n, par, key. split; [exact L|]. split; [exact W|]. split; [exact D|]. split; [exact Hn|]. split.
    - eapply holds_agree; [exact Pb|]. intros y Hy. rewrite wrap_size in Hy. eapply St; eassumption.
    - split; [eexists; split; [exact Hn|split; reflexivity]|]. split; [eapply keys_up_same; eassumption|]. exists (length (w_heap w)). split; [eapply root_up_same; eassumption|]. split; [lia|]. split; [intros _; exact Lb'|].
      pose proof (wrap_holds _ _ _ _ _ P0) as H0. inversion H0 as [| | | | | | |? ? its V0 F0]; subst. destruct (Ob _ _ V0) as [its' V']. exists its'. split; [exact V'|].
      destruct (id_of (VDict d0)) as [t|] eqn:Ei; [|exact I]. cbn [id_of] in Ei. destruct (id_member d0) as [[| | | | |t'| |]|] eqn:Em; try discriminate. injection Ei as ->.
      assert (Nr : dget (u "$ref") d0 = None). { inversion Ft as [? ? C|? ? Fo _]; subst; [exfalso; eapply C; reflexivity|]. destruct Fo as [(? & ? & ? & _ & _ & _ & C)|(N & _)]; [congruence|exact N]. }
      pose proof (Kp [] (length (w_heap w)) d0 (sp_here _ _) Nr) as Ld. inversion Ld as [? ? C|? ? its1 _ V1 F1|? ? ? ? ? ? ? G]; subst; [exfalso; eapply C; reflexivity| |congruence].
      pose proof (val_unique _ _ _ _ V1 V') as E. injection E as ->.
      assert (T : texts (w_heap w') its' (ddel (u "$anchor") d0)).
      { eapply Forall2_mono; [|exact F1]. intros [k1 a1] [k2 x2] [E1 E2]. split; [exact E1|]. cbn [snd] in *. intros t0 ->. inversion E2 as [? ? ? Hv| |]; subst. inversion Hv; subst. assumption. }
      pose proof (texts_id _ _ _ T) as Ti. unfold id_member in Ti, Em. rewrite !dget_ddel_other in Ti by discriminate. rewrite Em in Ti. exact Ti.
  Qed.

  (** C106, for a nested schema without references and anchors (outside arrays):
      the store has a document under the id; loading it works, changes no node,
      and its queries give what the nested schema has at the pointer.  But from
      then on the store has yet another, unloaded document under the id. *)
  Theorem C106_partial w v s w0 r q x k d : digits_ok dig -> fit_document auth v -> opened w v s w0 -> root_at w0 s r -> gives_id auth v q x -> key_of auth x = Ok k ->
    (forall q' y, gives_id auth v q' y -> key_of auth y = Ok k -> q' = q) -> inside v q (VDict d) -> quiet (VDict d) ->
    exists w' n w'' b, ev (fun rec => load rec s) w0 w' (Ok tt) /\ dget k (w_store w') = Some n /\
      ev (fun rec => load rec n) w' w'' (Ok tt) /\ (forall y, y < length (w_heap w') -> hget (w_heap w'') y = hget (w_heap w') y) /\
      walk (w_heap w0) r q b /\ holds (w_heap w'') b (VDict d) /\
      (forall p c, p <> [[]] -> walk (w_heap w'') b p c -> Runs (CQuery n p) w' w'' (Ok c)) /\
      exists n', n' <> n /\ dget k (w_store w'') = Some n' /\ nth_error (w_schemas w'') n' = Some (Schema b false core [] (Some x)).
  Proof.
    intros Dg Ft O Rt Gi Kx Un Iq Qd. destruct (nested_loaded w v s w0 r q x k d Ft O Rt Gi Kx Un Iq Qd) as (w' & b & n & par & key & L & W & D & Hn & P & St).
    destruct Ft as ((d0 & E0) & Ds & Ft). pose proof (inside_fit _ _ _ _ _ Iq _ Ft) as Fd. cbn [app] in Fd.
    destruct (fit_plan auth (id_of v) (VDict d) b q Fd) as [l Pl].
    pose proof (inside_distinct _ _ _ Iq Ds) as Dd.
    destruct (process_value auth dig strx fetch n (VDict d) w' b par key q (id_of v) l P St Pl) as (w1 & a1 & R1 & E1 & L1 & A1). pose proof (A1 Qd) as ->.
    assert (Hn1 : nth_error (w_schemas w1) n = Some (Schema b false core [] (Some x))).
    { change (w_schemas w1) with (fst (w_schemas w1, w_store w1)). rewrite (e_regs _ _ _ _ _ _ E1). apply done_others; [| |exact Hn].
      - intros t a C. apply (plan_anchors auth _ t a _ Dd _ _ _ Pl) in C as (q' & dd & Sp & _ & A). pose proof (spot_quiet _ _ _ _ _ Sp Qd) as Qz. inversion Qz as [? C|]; subst; [eapply C; reflexivity|congruence].
      - intros k' v'. eapply plan_no_root; [exact Pl|]. destruct Gi as (? & ? & _ & _ & _ & N & _). exact N. }
    set (w2 := World (w_heap w1) (lput (w_schemas w1) n (Schema b true core [] (Some x))) (w_store w1)).
    assert (Ln : ev (fun rec => load rec n) w' w2 (Ok tt)).
    { unfold load. eapply ev_known; [apply schema_at_ok, Hn|]. cbn [s_ready s_value]. eapply ev_bind; [exact R1|]. eapply ev_known; [apply schema_at_ok, Hn1|]. apply ev_pure. reflexivity. }
    destruct (L1 (w_heap w1) ltac:(reflexivity)) as (_ & _ & Stl).
    assert (Fr : forall y, y < length (w_heap w') -> hget (w_heap w1) y = hget (w_heap w') y).
    { intros y Hy. destruct (Nat.lt_ge_cases y b) as [Lb|Lb]; [apply (e_frame _ _ _ _ _ _ E1); lia|]. destruct (Nat.lt_ge_cases y (b + size (VDict d))) as [Lz|Lz].
      - apply (Stl [] b (VDict d)); [constructor|exact Qd|lia].
      - apply (e_frame _ _ _ _ _ _ E1); [exact Hy|]. rewrite wrap_size. lia. }
    assert (Hd : holds (w_heap w1) b (VDict d)).
    { eapply wrap_holds, holds_agree; [exact P|]. intros y Hy. apply Fr. pose proof (placed_lt _ _ _ (y - b) P ltac:(lia)). lia. }
    exists w', n, w2, b. split; [exact L|]. split; [exact D|]. split; [exact Ln|]. split; [exact Fr|]. split; [exact W|]. split; [exact Hd|]. split.
    - intros p c Np Wp. eapply query_loads; [exact Ln|]. eapply C44_partial; [exact Dg| |exact Np|exact Wp].
      exists (Schema b true core [] (Some x)). split; [cbn [w2 w_schemas]; rewrite nth_lput, Nat.eqb_refl, Hn1; reflexivity|]. repeat split. exact Hd.
    - pose proof (done_reg n k l (w_schemas w') (w_store w') ltac:(apply nth_error_Some; congruence)) as Dr. rewrite <- (e_regs _ _ _ _ _ _ E1) in Dr. destruct Dr as (_ & _ & Dr).
      destruct Gi as (dq & t & Iq' & Nr & It & Nq & Ne & Nm). pose proof (inside_unique _ _ _ Iq _ Iq') as E. injection E as ->.
      assert (Ib : In (DReg k x b) l).
      { apply (plan_regs auth _ k x b _ Dd _ _ _ Pl). exists [], d, t. rewrite app_nil_r. split; [constructor|auto 10]. }
      destruct Dr as [(v1 & b1 & n1 & I1 & G1 & N1 & H1)|[(C & _)|(C & _)]]; [|destruct (C _ _ Ib)|destruct (C _ _ Ib)].
      apply (plan_regs auth _ k v1 b1 _ Dd _ _ _ Pl) in I1 as (q1 & d1 & t1 & S1 & X1 & X2 & X3 & X4 & X5 & X6).
      assert (Eq : q ++ q1 = q). { apply (Un (q ++ q1) v1); [|exact X6]. exists d1, t1. split; [eapply inside_app; [exact Iq|eapply spot_inside, S1]|auto 10]. }
      assert (q1 = []) as -> by (apply (app_inv_head q); rewrite app_nil_r; exact Eq).
      assert (Es : b1 = b /\ VDict d1 = VDict d) by (inversion S1; auto). destruct Es as [-> Ed]. injection Ed as ->. rewrite It in X2. injection X2 as <-. rewrite (named_unique _ _ _ _ _ X5 Nm) in *.
      exists n1. split; [exact N1|]. split; [exact G1|]. cbn [w2 w_schemas]. rewrite nth_lput. destruct (Nat.eqb_spec n n1); [congruence|exact H1].
  Qed.
End Nested.

(** ** A nested schema with a reference, and one with an anchor *)
Definition C106_value : pv := VDict [
  (u "$id", VStr (u "http://h/s"));
  (u "defs", VDict [
    (u "x", VDict [(u "$id", VStr (u "http://h/t")); (u "items", VDict [(u "$ref", VStr (u "#/defs/y"))])]);
    (u "y", VDict [(u "minimum", VInt 3)]);
    (u "z", VDict [(u "$id", VStr (u "http://h/z")); (u "items", VDict [(u "$anchor", VStr (u "name")); (u "minimum", VInt 4)])])])].
Definition C106_world : world := fst (make_schema C106_value core (World [] [] [])).
Lemma C106_fit : fit_document toy C106_value.
Proof. apply fit_documentb_ok; vm_compute; reflexivity. Qed.
(** both ids are declared in it *)
Example C106_ids name : In name [u "t"; u "z"] -> exists x, gives_id toy C106_value [u "defs"; if str_eqb name (u "t") then u "x" else u "z"] x /\ key_of toy x = Ok (u "http://h/" ++ name).
Proof.
  intros [<-|[<-|[]]]; eexists; (split; [do 2 eexists; split; [do 2 (eapply in_member; [reflexivity|]); apply in_here|]; split; [reflexivity|]; split; [reflexivity|]; split; [discriminate|]; split; [apply str_mem_false; vm_compute; reflexivity|apply name_of_ok; vm_compute; reflexivity]|vm_compute; reflexivity]).
Qed.
(** By way of the outer document both places are found: the limit behind the
    reference, and the anchor.  By way of the ids: the first nested schema
    answers every query with an AttributeError, the second has no such anchor. *)
Theorem C106_refuted strx fetch : exists w0 w1 a c n m w2 w3,
  fit_document toy C106_value /\ opened (World [] [] []) C106_value 0 w0 /\
  Runs toy ex_dig strx fetch (CQuery 0 [u "defs"; u "x"; u "items"; u "minimum"]) w0 w1 (Ok a) /\ holds (w_heap w1) a (VInt 3) /\
  Runs toy ex_dig strx fetch (CQuery 0 [u "name"]) w1 w1 (Ok c) /\ holds (w_heap w1) c (VDict [(u "minimum", VInt 4)]) /\
  dget (u "http://h/t") (w_store w1) = Some n /\ (forall p, Runs toy ex_dig strx fetch (CQuery n p) w1 w2 (Raise EAttr)) /\
  dget (u "http://h/z") (w_store w1) = Some m /\ Runs toy ex_dig strx fetch (CQuery m [u "name"]) w1 w3 (Raise (EKey (u "name"))).
Proof.
  do 8 eexists. split; [exact C106_fit|]. split; [vm_compute; reflexivity|].
  split; [apply (Runs_once _ _ _ _ _ _ _ _ 12); [vm_compute; reflexivity|discriminate]|].
  split; [eapply h_int; [eexists; split; reflexivity|reflexivity]|].
  split; [apply (Runs_once _ _ _ _ _ _ _ _ 12); [vm_compute; reflexivity|discriminate]|].
  split; [eapply h_dict; [eexists; split; reflexivity|]; constructor; [split; [reflexivity|]; eapply h_int; [eexists; split; reflexivity|reflexivity]|constructor]|].
  split; [vm_compute; reflexivity|]. split.
  - intro p. apply ev_step. cbn [Doc.step]. unfold query. eapply ev_bind_raise. unfold load. eapply ev_known; [vm_compute; reflexivity|]. cbn [s_ready s_value]. eapply ev_bind_raise.
    apply (Runs_once _ _ _ _ _ _ _ _ 12); [vm_compute; reflexivity|discriminate].
  - split; [vm_compute; reflexivity|]. apply (Runs_once _ _ _ _ _ _ _ _ 12); [vm_compute; reflexivity|discriminate].
Qed.
(** the hypotheses of [C106_partial]: the child document of [C48_value] *)
Example C106_some : digits_ok ex_dig /\ fit_document toy C48_value /\ opened (World [] [] []) C48_value 0 C48_world /\ root_at C48_world 0 0 /\
  (exists x, gives_id toy C48_value [u "defs"; u "y"] x /\ key_of toy x = Ok (u "http://h/a/t.json") /\
    forall q' y, gives_id toy C48_value q' y -> key_of toy y = Ok (u "http://h/a/t.json") -> q' = [u "defs"; u "y"]) /\
  exists d, inside C48_value [u "defs"; u "y"] (VDict d) /\ quiet (VDict d) /\ dget (u "minimum") d = Some (VInt 3).
Proof.
  destruct C48_some as (H1 & H2 & H3 & _). destruct C50_some as (x & y & k & k' & _ & _ & _ & G & K & E & U). subst k'.
  split; [exact ex_dig_ok|]. split; [exact H1|]. split; [exact H2|]. split; [exact H3|]. split.
  - exists y. split; [exact G|]. split; [exact K|]. intros q' z Gz _. exact (proj1 (U q' z Gz)).
  - eexists. split; [do 2 (eapply in_member; [reflexivity|]); apply in_here|]. split; [|reflexivity]. apply qu_dict; [reflexivity|reflexivity|]. repeat constructor; discriminate.
Qed.
