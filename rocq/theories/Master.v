(** A schema object accepts a value iff it compiles and every keyword it uses
    gets what it demands. *)
From Verif Require Import PyBase PyBaseFacts PyVal Errors Validators Keywords Spec LeafFacts Mono RunFacts KeywordFacts.
From Coq Require Import QArith ZifyBool.
Local Open Scope Z_scope.

(** Schema objects are dictionaries: no member name twice. *)
Definition wf_view {node} (view : node -> res (nview node)) : Prop :=
  forall n w m, view n = Ok w -> nv_val w = NObj m -> NoDup (dkeys m).

Section Accept.
  Context {node : Type} (view : node -> res (nview node)) (strx : node -> pystr) (E : env).
  Variable voc : list akw.

  (** "schema node [n] accepts / rejects [v] at place [c]" *)
  Definition Accepts (n : node) (v : pv) (c : ctx) : Prop :=
    exists fuel, validate view strx E voc fuel n v c = Ok tt.
  Definition Rejects (n : node) (v : pv) (c : ctx) : Prop :=
    exists fuel e, validate view strx E voc fuel n v c = Raise (EValid e).

  Definition compiles (n : node) : Prop := exists d, compile view strx E voc n = Ok d.

  Lemma accepts_table n v c : Accepts n v c <->
    exists d, compile view strx E voc n = Ok d /\
      Forall (fun ko => vholds view E Accepts Rejects (snd ko) v c) d.
  Proof.
    assert (Hmono : forall f f' n v c, (f <= f')%nat ->
              le_res (validate view strx E voc f n v c) (validate view strx E voc f' n v c)).
    { intros; apply le_validate; assumption. }
    split.
    - intros [[|f] H]; [discriminate|]. cbn [validate] in H. apply bind_Ok in H as (d & Hd & H).
      exists d. split; [exact Hd|]. apply for_each_Ok in H. eapply Forall_impl; [|exact H].
      intros [k o] Ho. apply run_vobj_sound in Ho.
      exact (vholds_weaken view E (fun f => validate view strx E voc f) f o v c Ho).
    - intros (d & Hd & Hf).
      assert (Hev : ev (fun f => Forall (fun ko => run_vobj view E (validate view strx E voc f) f (snd ko) v c = Ok tt) d)).
      { apply (ev_Forall (fun f (ko : pystr * vobj node node) =>
                 run_vobj view E (validate view strx E voc f) f (snd ko) v c = Ok tt)).
        eapply Forall_impl; [|exact Hf]. intros [k o] Ho. cbn [snd] in *.
        apply (run_vobj_ev view E (fun f => validate view strx E voc f) Hmono). exact Ho. }
      apply ev_ex in Hev as [f Hall]. exists (S f). cbn [validate]. rewrite Hd. cbn [bind].
      apply for_each_Ok. exact Hall.
  Qed.
End Accept.

Section Object.
  Context {node : Type} (view : node -> res (nview node)) (strx : node -> pystr) (E : env).
  Variable voc : list akw.
  Variables acc rej : node -> pv -> ctx -> Prop.
  Variable items : list (pystr * node).
  Hypothesis Hwf : wf_view view.

  Notation demands := (demands view strx E voc acc rej items).
  Notation vholds := (vholds view E acc rej).
  Notation done := (rev (actives items voc)).

  Lemma done_In k : In k done <-> In k voc /\ In (kw_key k) (dkeys items).
  Proof. rewrite <- in_rev. unfold actives. rewrite filter_In, dmem_In. reflexivity. Qed.
  Lemma done_mem k : akw_mem k done = true <-> In k voc /\ In (kw_key k) (dkeys items).
  Proof. rewrite akw_mem_In. apply done_In. Qed.
  Lemma done_mem_voc k n : dget (kw_key k) items = Some n -> akw_mem k done = true <-> In k voc.
  Proof.
    intro H. rewrite done_mem. split; [tauto|]. intro Hv. split; [exact Hv|].
    apply dget_In, (in_map fst) in H. exact H.
  Qed.

  Lemma strict_flag_iff k ex : exclusive_flag view items k = Ok ex ->
    strict_flag view items k <-> ex = true.
  Proof.
    unfold exclusive_flag, strict_flag, opnd, dmem. destruct (dget k items) as [n|] eqn:Hn.
    - intro H. apply bind_Ok in H as (w & Hw & H). injection H as <-. split.
      + intros (n' & w' & Hn' & Hw' & Hx). injection Hn' as <-. rewrite Hw in Hw'. injection Hw' as <-.
        unfold eq_true. destruct Hx as [->|(d & -> & Hd)]; [reflexivity|]. apply Qeq_bool_iff; exact Hd.
      + intro H. exists n, w. repeat split; auto. unfold eq_true in H.
        destruct (nv_val w) as [|b|d| | |]; try discriminate.
        * left; subst; reflexivity.
        * right. exists d. split; [reflexivity|]. apply Qeq_bool_iff; exact H.
    - intro H. injection H as <-. split; [|discriminate]. intros (n' & w' & H & _). discriminate.
  Qed.

  Lemma opt_bound_iff k o : opt_bound view items k = Ok o ->
    (forall z, int_member view items k z <-> o = Some z) /\ (dget k items = None <-> o = None).
  Proof.
    unfold opt_bound, int_member, opnd, dmem. destruct (dget k items) as [n|] eqn:Hn.
    - intro H. apply bind_Ok in H as (w & Hw & H). apply bind_Ok in H as (d & Hd & H). injection H as <-.
      unfold as_num in Hd. destruct (nv_val w) as [| |d'| | |] eqn:Hv; try discriminate.
      destruct (nv_ref w); [discriminate|]. injection Hd as ->. split; [|split; discriminate].
      intro z. split.
      + intros (n' & w' & d'' & H1 & H2 & H3 & ->). injection H1 as <-. rewrite Hw in H2. injection H2 as <-.
        rewrite Hv in H3. injection H3 as <-. reflexivity.
      + intro H. injection H as <-. exists n, w, d. auto.
    - intro H. injection H as <-. split; [|tauto].
      intro z. split; [|discriminate]. intros (n' & w' & d & H & _). discriminate.
  Qed.

  Lemma own_result_put k o : apply view strx E k items [] = Ok (put k o []) ->
    own_result view strx E items k = Some o.
  Proof. intro H. unfold own_result. rewrite H. simpl. rewrite str_eqb_refl. reflexivity. Qed.

  (** keywords with a validator of their own *)
  Lemma own_demands k m w v c : is_own k = true ->
    dget (kw_key k) items = Some m -> view m = Ok w ->
    applies view strx E items k ->
    (forall o, own_result view strx E items k = Some o -> vholds o v c) <->
    demands k m (nv_val w) v c.
  Proof.
    intros Hk Hm Hw [d0 Ha].
    assert (Hput : forall o, apply view strx E k items [] = Ok (put k o []) ->
              ((forall o, own_result view strx E items k = Some o -> vholds o v c) <-> vholds o v c)).
    { intros o Ho. rewrite (own_result_put k o Ho). split.
      - intro H; apply H; reflexivity.
      - intros H o' Ho'. injection Ho' as <-. exact H. }
    assert (Hnone : apply view strx E k items [] = Ok [] ->
              ((forall o, own_result view strx E items k = Some o -> vholds o v c) <-> True)).
    { intros Ho. unfold own_result. rewrite Ho. simpl. split; [tauto|]. intros _ o; discriminate. }
    unfold apply, opnd, opnd_node in Ha, Hput, Hnone.
    rewrite Hm in Ha, Hput, Hnone. cbn [bind] in Ha, Hput, Hnone.
    rewrite Hw in Ha, Hput, Hnone. cbn [bind] in Ha, Hput, Hnone.
    destruct k; try discriminate Hk; clear Hk.
    - (* allOf *)
      unfold as_arr in *. destruct (nv_val w) as [| | | |l|]; try discriminate. destruct (nv_ref w); [discriminate|].
      rewrite (Hput _ eq_refl). cbn [Spec.demands RunFacts.vholds]. apply Forall_forall.
    - (* anyOf *)
      unfold as_arr in *. destruct (nv_val w) as [| | | |l|]; try discriminate. destruct (nv_ref w); [discriminate|].
      rewrite (Hput _ eq_refl). cbn [Spec.demands RunFacts.vholds]. setoid_rewrite Forall_forall. reflexivity.
    - (* const *)
      assert (Hs : scalar (nv_val w)) by (destruct (nv_val w); try exact I; discriminate).
      assert (Hp : (forall o, own_result view strx E items KwConst = Some o -> vholds o v c) <-> vholds (VConst (nv_val w)) v c).
      { apply Hput. destruct (nv_val w); try discriminate; destruct (nv_ref w); try discriminate; reflexivity. }
      rewrite Hp. cbn [RunFacts.vholds]. rewrite const_validate_ok by exact Hs.
      destruct (nv_val w); try contradiction; reflexivity.
    - (* contains *)
      unfold as_obj in *. destruct (nv_val w) as [| | | | |it]; try discriminate.
      cbn [bind] in *. destruct (opt_bound view items (u "minContains")) as [mn| |] eqn:Hmn; try discriminate.
      cbn [bind] in *. destruct (opt_bound view items (u "maxContains")) as [mx| |] eqn:Hmx; try discriminate.
      cbn [bind] in *. rewrite (Hput _ eq_refl). cbn [Spec.demands RunFacts.vholds].
      destruct (opt_bound_iff _ _ Hmn) as [Hmn1 Hmn2]. destruct (opt_bound_iff _ _ Hmx) as [Hmx1 Hmx2].
      split.
      + intros (elems & flags & H1 & H2 & H3 & H4). exists elems, flags. repeat split; auto.
        * intros z Hz. apply Hmn1 in Hz. subst mn. exact H3.
        * intro Hn. apply Hmn2 in Hn. subst mn. exact H3.
        * intros z Hz Hz0. apply Hmx1 in Hz. auto.
      + intros (elems & flags & H1 & H2 & H3 & H4 & H5). exists elems, flags. repeat split; auto.
        * destruct mn as [z|]; [apply H3, Hmn1; reflexivity|apply H4, Hmn2; reflexivity].
        * intros z Hz Hz0. apply H5; [apply Hmx1; exact Hz|exact Hz0].
    - (* dependentRequired *)
      unfold as_obj in *. destruct (nv_val w) as [| | | | |tbl]; try discriminate. cbn [bind] in *.
      destruct (map_res (fun '(key, x) => s <- iter_strs view strx x ;; Ok (key, s)) tbl) as [l| |] eqn:Hl;
        try discriminate.
      cbn [bind] in *. rewrite (Hput _ eq_refl). cbn [Spec.demands RunFacts.vholds].
      destruct v; try reflexivity. apply map_res_Ok in Hl.
      assert (Hiff : forall key names, In (key, names) l <-> exists x, In (key, x) tbl /\ iter_strs view strx x = Ok names).
      { clear -Hl. induction Hl as [|[k0 x0] [k1 s1] tbl l H Hl IH]; intros key names.
        - split; [intros []|intros (x & [] & _)].
        - apply bind_Ok in H as (s & Hs & H). injection H as <- <-. simpl. rewrite IH. split.
          + intros [H|(x & H & Hx)]; [injection H as <- <-; eauto|eauto].
          + intros (x & [H|H] & Hx); [injection H as <- <-; left; congruence|right; eauto]. }
      split.
      + intros H key x names Hin Hkey Hx name Hname. apply (H key names); auto. apply Hiff. eauto.
      + intros H key names Hin Hkey name Hname. apply Hiff in Hin as (x & Hin & Hx). eapply H; eauto.
    - (* dependentSchemas *)
      unfold as_obj in *. destruct (nv_val w) as [| | | | |tbl]; try discriminate. cbn [bind] in *.
      rewrite (Hput _ eq_refl). cbn [Spec.demands RunFacts.vholds]. destruct v; try reflexivity.
      rewrite Forall_forall. split.
      + intros H key x Hin Hk. apply (H (key, x) Hin Hk).
      + intros H [key x] Hin Hk. exact (H key x Hin Hk).
    - (* enum *)
      destruct (nv_val w) as [| | | |l|]; try discriminate.
      destruct (map_res (enum_item view) l) as [xs| |] eqn:Hxs; try discriminate. cbn [bind] in *.
      rewrite (Hput _ eq_refl). cbn [Spec.demands RunFacts.vholds]. apply map_res_Ok in Hxs. split.
      + intros (l1 & y & l2 & -> & Hy & Hl1).
        apply Forall2_app_inv_r in Hxs as (m1 & m2' & Hm1 & Hm2 & ->).
        inversion Hm2 as [|n' ? m2 ? Hn Hm2']; subst.
        exists m1, n', m2, y. split; [reflexivity|]. split; [exact Hn|]. split; [exact Hy|].
        intros n'' y' Hin Hn''. apply Hl1.
        clear -Hm1 Hin Hn''. induction Hm1 as [|a b m1 l1 H Hf IH]; [contradiction|].
        destruct Hin as [->|Hin]; [left; congruence|right; auto].
      + intros (m1 & n' & m2 & y & -> & Hn & Hy & Hl1).
        apply Forall2_app_inv_l in Hxs as (l1 & l2' & Hm1 & Hm2 & ->).
        inversion Hm2 as [|? y0 ? l2 Hn' Hm2']; subst.
        rewrite Hn in Hn'. injection Hn' as <-.
        exists l1, y, l2. split; [reflexivity|]. split; [exact Hy|].
        intros y' Hin.
        assert (exists n'', In n'' m1 /\ enum_item view n'' = Ok y') as (n'' & Hin' & Hn'').
        { clear -Hm1 Hin. induction Hm1 as [|a b m1 l1 H Hf IH]; [contradiction|].
          destruct Hin as [->|Hin]; [exists a; split; [left; reflexivity|exact H]|].
          destruct (IH Hin) as (n & H1 & H2). exists n. split; [right; exact H1|exact H2]. }
        exact (Hl1 n'' y' Hin' Hn'').
    - (* exclusiveMaximum *)
      unfold as_num in *. destruct (nv_val w) as [|b|d| | |]; try discriminate.
      + destruct (dmem (u "maximum") items); [|discriminate]. rewrite (Hnone eq_refl). reflexivity.
      + destruct (nv_ref w); [discriminate|]. rewrite (Hput _ eq_refl). cbn [Spec.demands RunFacts.vholds].
        split; intros (q & H1 & H2).
        * exists q. destruct H2 as [_ H2]. auto.
        * exists q. repeat split; auto. apply Qlt_le_weak; exact H2.
    - (* exclusiveMinimum *)
      unfold as_num in *. destruct (nv_val w) as [|b|d| | |]; try discriminate.
      + destruct (dmem (u "minimum") items); [|discriminate]. rewrite (Hnone eq_refl). reflexivity.
      + destruct (nv_ref w); [discriminate|]. rewrite (Hput _ eq_refl). cbn [Spec.demands RunFacts.vholds].
        split; intros (q & H1 & H2).
        * exists q. destruct H2 as [_ H2]. auto.
        * exists q. repeat split; auto. apply Qlt_le_weak; exact H2.
    - (* format *)
      unfold as_str in *. destruct (nv_val w) as [| | |f| |]; try discriminate. destruct (nv_ref w); [discriminate|].
      cbn [bind] in *. destruct (fmt E f) eqn:Hf; [|discriminate]. rewrite (Hput _ eq_refl).
      cbn [Spec.demands RunFacts.vholds]. rewrite Hf. reflexivity.
    - (* items *)
      destruct (nv_val w) as [|b| | |l|it] eqn:Hv; try discriminate; cbn [bind dget] in *.
      + rewrite (Hput _ eq_refl). unfold is_true. rewrite Hv. cbn [RunFacts.vholds]. destruct b; cbn [Spec.demands].
        * split; [intros (vals & -> & _); eauto|]. intros (vals & ->). exists vals. split; [reflexivity|].
          split; [|discriminate]. split; [simpl; lia|]. intros [|i] p x H; discriminate.
        * split.
          -- intros (vals & -> & _ & H). exists vals. split; [reflexivity|].
             intros i y Hy. apply (H m eq_refl i y); [simpl; lia|exact Hy].
          -- intros (vals & -> & H). exists vals. split; [reflexivity|].
             split; [split; [simpl; lia|]; intros [|i] p x H0; discriminate|].
             intros n' Hn'. injection Hn' as <-. intros i y _ Hy. exact (H i y Hy).
      + destruct (nv_ref w); [discriminate|].
        destruct (dmem (u "additionalItems") items) eqn:Hai.
        * destruct (dget (u "additionalItems") items) as [na|] eqn:Hna; [|discriminate]. cbn [bind] in *.
          destruct (view na) as [wa| |] eqn:Hwa; try discriminate. cbn [bind] in *.
          rewrite (Hput _ eq_refl). cbn [Spec.demands RunFacts.vholds]. split.
          -- intros (vals & -> & [Hl Hp] & Hi). exists vals. repeat split; auto.
             intros m' w' Hm' Hw' Hnt i y Hle Hy. rewrite Hna in Hm'. injection Hm' as <-.
             rewrite Hwa in Hw'. injection Hw' as <-.
             apply (Hi na); [|exact Hle|exact Hy].
             unfold is_true. destruct (nv_val wa) as [|[]| | | |]; try reflexivity. congruence.
          -- intros (vals & -> & Hl & Hp & Hi). exists vals. repeat split; auto.
             intros n' Hn' i y Hle Hy. unfold is_true in Hn'.
             assert (Hnt : nv_val wa <> NBool true).
             { intro Heq. rewrite Heq in Hn'. discriminate. }
             assert (Heq : n' = na) by (destruct (nv_val wa) as [|[]| | | |]; congruence).
             subst n'. exact (Hi na wa Hna Hwa Hnt i y Hle Hy).
        * rewrite (Hput _ eq_refl). cbn [Spec.demands RunFacts.vholds].
          unfold dmem in Hai. destruct (dget (u "additionalItems") items) eqn:Hna; [discriminate|]. split.
          -- intros (vals & -> & [Hl Hp] & Hi). exists vals. repeat split; auto. intros m' w' H; congruence.
          -- intros (vals & -> & Hl & Hp & Hi). exists vals. repeat split; auto. intros n' Hn'; discriminate.
      + rewrite (Hput _ eq_refl). unfold is_true. rewrite Hv. cbn [Spec.demands RunFacts.vholds]. split.
        -- intros (vals & -> & _ & H). exists vals. split; [reflexivity|].
           intros i y Hy. apply (H m eq_refl i y); [simpl; lia|exact Hy].
        -- intros (vals & -> & H). exists vals. split; [reflexivity|].
           split; [split; [simpl; lia|]; intros [|i] p x H0; discriminate|].
           intros n' Hn'. injection Hn' as <-. intros i y _ Hy. exact (H i y Hy).
    - (* maxItems *)
      unfold as_num in *. destruct (nv_val w); try discriminate. destruct (nv_ref w); [discriminate|].
      rewrite (Hput _ eq_refl). reflexivity.
    - unfold as_num in *. destruct (nv_val w); try discriminate. destruct (nv_ref w); [discriminate|].
      rewrite (Hput _ eq_refl). reflexivity.
    - unfold as_num in *. destruct (nv_val w); try discriminate. destruct (nv_ref w); [discriminate|].
      rewrite (Hput _ eq_refl). reflexivity.
    - (* maximum *)
      unfold as_num in *. destruct (nv_val w) as [| |d| | |]; try discriminate. destruct (nv_ref w); [discriminate|].
      cbn [bind] in *. destruct (exclusive_flag view items (u "exclusiveMaximum")) as [ex| |] eqn:Hex; try discriminate.
      cbn [bind] in *. rewrite (Hput _ eq_refl). cbn [Spec.demands RunFacts.vholds].
      setoid_rewrite (strict_flag_iff _ _ Hex). reflexivity.
    - unfold as_num in *. destruct (nv_val w); try discriminate. destruct (nv_ref w); [discriminate|].
      rewrite (Hput _ eq_refl). reflexivity.
    - unfold as_num in *. destruct (nv_val w); try discriminate. destruct (nv_ref w); [discriminate|].
      rewrite (Hput _ eq_refl). reflexivity.
    - unfold as_num in *. destruct (nv_val w); try discriminate. destruct (nv_ref w); [discriminate|].
      rewrite (Hput _ eq_refl). reflexivity.
    - (* minimum *)
      unfold as_num in *. destruct (nv_val w) as [| |d| | |]; try discriminate. destruct (nv_ref w); [discriminate|].
      cbn [bind] in *. destruct (exclusive_flag view items (u "exclusiveMinimum")) as [ex| |] eqn:Hex; try discriminate.
      cbn [bind] in *. rewrite (Hput _ eq_refl). cbn [Spec.demands RunFacts.vholds].
      setoid_rewrite (strict_flag_iff _ _ Hex). reflexivity.
    - (* multipleOf *)
      unfold as_num in *. destruct (nv_val w); try discriminate. destruct (nv_ref w); [discriminate|].
      rewrite (Hput _ eq_refl). reflexivity.
    - (* not *)
      unfold as_obj in *. destruct (nv_val w); try discriminate. rewrite (Hput _ eq_refl). reflexivity.
    - (* oneOf *)
      unfold as_arr in *. destruct (nv_val w) as [| | | |l|]; try discriminate. destruct (nv_ref w); [discriminate|].
      rewrite (Hput _ eq_refl). cbn [Spec.demands RunFacts.vholds]. setoid_rewrite Forall_forall. reflexivity.
    - (* pattern *)
      unfold as_str in *. destruct (nv_val w) as [| | |p| |]; try discriminate. destruct (nv_ref w); [discriminate|].
      cbn [bind] in *. destruct (re_ok E p); [|discriminate]. rewrite (Hput _ eq_refl). reflexivity.
    - (* prefixItems *)
      unfold as_arr in *. destruct (nv_val w) as [| | | |l|]; try discriminate. destruct (nv_ref w); [discriminate|].
      cbn [bind] in *. rewrite (Hput _ eq_refl). cbn [Spec.demands RunFacts.vholds]. split.
      + intros (vals & -> & [Hl Hp] & _). eauto.
      + intros (vals & -> & Hl & Hp). exists vals. repeat split; auto. intros n' H; discriminate.
    - (* required *)
      unfold as_arr in *. destruct (nv_val w) as [| | | |l|]; try discriminate. destruct (nv_ref w); [discriminate|].
      rewrite (Hput _ eq_refl). cbn [Spec.demands RunFacts.vholds]. split.
      + intros H x Hx. apply H, in_map, Hx.
      + intros H name Hn. apply in_map_iff in Hn as (x & <- & Hx). exact (H x Hx).
    - (* type *)
      destruct (nv_val w) as [| | |s|l|]; try discriminate; (destruct (nv_ref w); [discriminate|]); cbn [bind] in *.
      + destruct (forallb (fun t => str_mem t valid_types) [s]); [|discriminate].
        rewrite (Hput _ eq_refl). cbn [Spec.demands RunFacts.vholds]. split.
        * intros (t & [<-|[]] & H). exact H.
        * intro H. exists s. split; [left; reflexivity|exact H].
      + destruct (forallb (fun t => str_mem t valid_types) (map (item_str view strx) l)); [|discriminate].
        rewrite (Hput _ eq_refl). cbn [Spec.demands RunFacts.vholds]. split.
        * intros (t & Hin & H). apply in_map_iff in Hin as (x & <- & Hx). eauto.
        * intros (x & Hx & H). exists (item_str view strx x). split; [apply in_map, Hx|exact H].
    - (* uniqueItems *)
      destruct (nv_val w) as [|[]| | | |]; try discriminate.
      + rewrite (Hput _ eq_refl). reflexivity.
      + rewrite (Hnone eq_refl). reflexivity.
  Qed.

  Definition all_demands (v : pv) (c : ctx) (P : akw -> bool) : Prop :=
    forall k m w, P k = true -> In k voc -> dget (kw_key k) items = Some m -> view m = Ok w ->
      demands k m (nv_val w) v c.

  (** inversion of a successful application *)
  Lemma applies_view k : applies view strx E items k ->
    exists m w, dget (kw_key k) items = Some m /\ view m = Ok w.
  Proof.
    intros [d0 H]. unfold apply, opnd in H. destruct (dget (kw_key k) items) as [m|]; [|discriminate].
    apply bind_Ok in H as (w & Hw & _). eauto.
  Qed.
  Lemma applies_fam k : is_fam k = true -> applies view strx E items k ->
    exists m w, dget (kw_key k) items = Some m /\ view m = Ok w /\
      match k with
      | KwAdditionalProperties => match nv_val w with NBool _ | NObj _ => True | _ => False end
      | KwUnevaluatedProperties => match nv_val w with NBool _ => True | _ => False end
      | _ => match nv_val w with NObj _ => True | _ => False end
      end.
  Proof.
    intros Hk [d0 H]. unfold apply, opnd, opnd_node in H.
    destruct (dget (kw_key k) items) as [m|] eqn:Hm; [|discriminate]. cbn [bind] in H.
    destruct (view m) as [w| |] eqn:Hw; try discriminate. exists m, w. repeat split; auto.
    cbn [bind] in H. unfold as_obj in H. destruct k; try discriminate Hk; destruct (nv_val w); try discriminate; exact I.
  Qed.
  Lemma applies_cond k : is_cond k = true -> applies view strx E items k ->
    exists m w it, dget (kw_key k) items = Some m /\ view m = Ok w /\ nv_val w = NObj it.
  Proof.
    intros Hk [d0 H]. unfold apply, opnd, opnd_node in H.
    destruct (dget (kw_key k) items) as [m|] eqn:Hm; [|discriminate]. cbn [bind] in H.
    destruct (view m) as [w| |] eqn:Hw; try discriminate. exists m, w.
    cbn [bind] in H. unfold as_obj in H. destruct k; try discriminate Hk; destruct (nv_val w) as [| | | | |it]; try discriminate; eauto.
  Qed.

  Hypothesis Happ : Forall (applies view strx E items) (actives items voc).

  Lemma done_applies k : akw_mem k done = true -> applies view strx E items k.
  Proof.
    intro H. apply akw_mem_In in H. rewrite <- in_rev in H. rewrite Forall_forall in Happ. auto.
  Qed.

  Lemma cond_demands v c :
    vholds (VCond (condv_of items done)) v c <-> all_demands v c is_cond.
  Proof.
    cbn [RunFacts.vholds]. unfold condv_of, onode. cbn [cv_if cv_then cv_else].
    assert (Hthen : forall n, (if akw_mem KwThen done then dget (kw_key KwThen) items else None) = Some n <->
              In KwThen voc /\ dget (u "then") items = Some n).
    { intro n. cbn [kw_key]. destruct (akw_mem KwThen done) eqn:Hm.
      - apply done_mem in Hm. tauto.
      - split; [discriminate|]. intros [Hv Hn].
        pose proof (proj2 (done_mem_voc KwThen n Hn) Hv) as Hx. congruence. }
    assert (Helse : forall n, (if akw_mem KwElse done then dget (kw_key KwElse) items else None) = Some n <->
              In KwElse voc /\ dget (u "else") items = Some n).
    { intro n. cbn [kw_key]. destruct (akw_mem KwElse done) eqn:Hm.
      - apply done_mem in Hm. tauto.
      - split; [discriminate|]. intros [Hv Hn].
        pose proof (proj2 (done_mem_voc KwElse n Hn) Hv) as Hx. congruence. }
    split.
    - intros H k m w Hk Hv Hm Hw.
      pose proof (proj2 (done_mem_voc k m Hm) Hv) as Hd.
      destruct (applies_cond k Hk (done_applies k Hd)) as (m' & w' & it & Hm' & Hw' & Hit).
      rewrite Hm in Hm'. injection Hm' as <-. rewrite Hw in Hw'. injection Hw' as <-. rewrite Hit.
      destruct k; try discriminate Hk; try exact I. cbn [Spec.demands].
      rewrite Hd in H. specialize (H m Hm). destruct H as [[H1 H2]|[H1 (n & H2 & H3)]].
      + left. split; [exact H1|]. intros Hv' n Hn. apply H2, Hthen. auto.
      + right. split; [exact H1|]. apply Helse in H2 as [H2 H4]. eauto.
    - intros H i Hi. destruct (akw_mem KwIf done) eqn:Hm; [|discriminate].
      destruct (applies_cond KwIf eq_refl (done_applies _ Hm)) as (m & w & it & Hm' & Hw & Hit).
      rewrite Hm' in Hi. injection Hi as <-.
      assert (Hv : In KwIf voc) by (apply done_mem in Hm; tauto).
      specialize (H KwIf m w eq_refl Hv Hm' Hw). rewrite Hit in H. cbn [Spec.demands] in H.
      destruct H as [[H1 H2]|(H1 & H2 & n & H3 & H4)].
      + left. split; [exact H1|]. intros n Hn. apply Hthen in Hn as [H3 H4]. auto.
      + right. split; [exact H1|]. exists n. split; [apply Helse; auto|exact H4].
  Qed.

  Notation O := (objv_of view items done).
  Lemma O_data key : In key (dkeys (ov_data O)) <-> declared view voc items key.
  Proof.
    unfold objv_of, oview; cbn [ov_data kw_key]. unfold declared. destruct (akw_mem KwProperties done) eqn:Hm.
    - destruct (applies_fam KwProperties eq_refl (done_applies _ Hm)) as (m & w & Hn & Hw & Hv).
      cbn [kw_key] in Hn. rewrite Hn, Hw. destruct (nv_val w) as [| | | | |props] eqn:Hp; try contradiction.
      apply done_mem in Hm as [Hvoc _]. split.
      + intro H. split; [exact Hvoc|]. exists m, w, props. auto.
      + intros (_ & m' & w' & props' & H1 & H2 & H3 & H4).
        injection H1 as <-. rewrite Hw in H2. injection H2 as <-. rewrite Hp in H3. injection H3 as <-. exact H4.
    - split; [intros []|]. intros (Hv & m & w & props & H1 & _).
      pose proof (proj2 (done_mem_voc KwProperties m H1) Hv). congruence.
  Qed.
  Lemma O_pat pats : ov_pat O = Some pats <->
    In KwPatternProperties voc /\
    exists n w, dget (u "patternProperties") items = Some n /\ view n = Ok w /\ nv_val w = NObj pats.
  Proof.
    unfold objv_of, oview; cbn [ov_pat kw_key]. destruct (akw_mem KwPatternProperties done) eqn:Hm.
    - destruct (applies_fam KwPatternProperties eq_refl (done_applies _ Hm)) as (m & w & Hn & Hw & Hv).
      cbn [kw_key] in Hn. rewrite Hn, Hw. destruct (nv_val w) as [| | | | |pats'] eqn:Hp; try contradiction.
      apply done_mem in Hm as [Hvoc _]. split.
      + intro H. injection H as <-. split; [exact Hvoc|]. exists m, w. auto.
      + intros (_ & m' & w' & H1 & H2 & H3).
        injection H1 as <-. rewrite Hw in H2. injection H2 as <-. congruence.
    - split; [discriminate|]. intros (Hv & m & w & H1 & _).
      pose proof (proj2 (done_mem_voc KwPatternProperties m H1) Hv). congruence.
  Qed.
  Lemma O_matched key : matched E O key <-> pattern_matched view E voc items key.
  Proof.
    unfold matched, pattern_matched. split.
    - intros (pats & p & n & Hp & Hin & Hs). apply O_pat in Hp as (Hv & m & w & H1 & H2 & H3).
      split; [exact Hv|]. exists m, w, pats, p, n. auto.
    - intros (Hv & m & w & pats & p & n & H1 & H2 & H3 & H4 & H5).
      exists pats, p, n. split; [|auto]. apply O_pat. split; [exact Hv|]. exists m, w. auto.
  Qed.

  Lemma fam_demands v c : vholds (VObject O) v c <-> all_demands v c is_fam.
  Proof.
    cbn [RunFacts.vholds]. unfold all_demands.
    destruct v as [| | | | | | |inst];
      try (split; [|tauto]; intros _ k m w Hk _ _ _; destruct k; try discriminate Hk;
           destruct (nv_val w) as [|[]| | | |]; exact I).
    rewrite Forall_forall. split.
    - intros H k m w Hk Hvoc Hm Hw.
      pose proof (proj2 (done_mem_voc k m Hm) Hvoc) as Hd.
      destruct (applies_fam k Hk (done_applies k Hd)) as (m' & w' & Hm' & Hw' & Hop).
      rewrite Hm in Hm'. injection Hm' as <-. rewrite Hw in Hw'. injection Hw' as <-.
      destruct k; try discriminate Hk; cbn [kw_key] in Hm.
      + (* additionalProperties *)
        assert (Hadd : ov_addl O = match nv_val w with NBool false => Some SFail | NObj _ => Some (SLazy m) | _ => None end).
        { unfold objv_of, oview, onode; cbn [ov_addl kw_key]. rewrite Hd, Hm, Hw.
          destruct (nv_val w) as [|[]| | | |]; reflexivity. }
        destruct (nv_val w) as [|[]| | | |it] eqn:Hv; try contradiction; try exact I; cbn [Spec.demands for_members];
          intros key y Hin; specialize (H (key, y) Hin); destruct H as [_ H]; cbn [fst snd] in H;
          destruct (dget key (ov_data O)) eqn:Hg;
          try (left; apply O_data; apply dget_In, (in_map fst) in Hg; exact Hg);
          destruct H as [_ [Hma|Hr]]; try (right; try left; apply O_matched; exact Hma).
        * unfold rest_ok in Hr. rewrite Hadd in Hr. contradiction.
        * right; right. unfold rest_ok in Hr. rewrite Hadd in Hr. exact Hr.
      + (* patternProperties *)
        destruct (nv_val w) as [| | | | |pats] eqn:Hv; try contradiction. cbn [Spec.demands for_members].
        intros key y Hin Hnd p n Hpn. specialize (H (key, y) Hin). destruct H as [_ H]. cbn [fst snd] in H.
        destruct (dget key (ov_data O)) eqn:Hg.
        { exfalso; apply Hnd, O_data. apply dget_In, (in_map fst) in Hg; exact Hg. }
        destruct H as [Hf _]. assert (Hp : ov_pat O = Some pats).
        { apply O_pat. split; [exact Hvoc|]. exists m, w. auto. }
        specialize (Hf pats Hp). rewrite Forall_forall in Hf. exact (Hf (p, n) Hpn).
      + (* properties *)
        destruct (nv_val w) as [| | | | |props] eqn:Hv; try contradiction. cbn [Spec.demands for_members].
        intros key y Hin n Hn. specialize (H (key, y) Hin). destruct H as [_ H]. cbn [fst snd] in H.
        assert (Hdata : ov_data O = props).
        { unfold objv_of, oview; cbn [ov_data kw_key]. rewrite Hd, Hm, Hw, Hv. reflexivity. }
        rewrite Hdata, Hn in H. exact H.
      + (* propertyNames *)
        destruct (nv_val w) as [| | | | |it] eqn:Hv; try contradiction. cbn [Spec.demands for_members].
        intros key y Hin. specialize (H (key, y) Hin). destruct H as [H _]. cbn [fst snd] in H.
        apply H. unfold objv_of, onode; cbn [ov_names kw_key]. rewrite Hd. exact Hm.
      + (* unevaluatedProperties *)
        destruct (nv_val w) as [|[]| | | |] eqn:Hv; try contradiction; try exact I. cbn [Spec.demands for_members].
        intros key y Hin. specialize (H (key, y) Hin). destruct H as [_ H]. cbn [fst snd] in H.
        destruct (dget key (ov_data O)) eqn:Hg.
        { left; apply O_data; apply dget_In, (in_map fst) in Hg; exact Hg. }
        destruct H as [_ [Hma|Hr]]; [right; left; apply O_matched; exact Hma|right; right].
        unfold rest_ok in Hr. destruct (ov_addl O) eqn:Hadd.
        * unfold additional_restricts. unfold objv_of, oview, onode in Hadd. cbn [ov_addl kw_key] in Hadd.
          destruct (akw_mem KwAdditionalProperties done) eqn:Hma; [|discriminate].
          split; [apply done_mem in Hma; tauto|].
          destruct (dget (u "additionalProperties") items) as [n'|] eqn:Hn'; [|discriminate].
          destruct (view n') as [w'| |] eqn:Hw'; try discriminate. exists n', w'. repeat split; auto.
          intro Heq. rewrite Heq in Hadd. discriminate.
        * assert (Hun : ov_uneval O = true).
          { unfold objv_of, oview; cbn [ov_uneval kw_key]. rewrite Hd, Hm, Hw, Hv. reflexivity. }
          congruence.
    - intros H [key y] Hin. cbn [fst snd]. split.
      + intros n Hn. unfold objv_of, onode in Hn. cbn [ov_names kw_key] in Hn.
        destruct (akw_mem KwPropertyNames done) eqn:Hm; [|discriminate].
        destruct (applies_fam KwPropertyNames eq_refl (done_applies _ Hm)) as (m & w & Hm' & Hw & Hop).
        cbn [kw_key] in Hm'. rewrite Hm' in Hn. injection Hn as <-.
        assert (Hv : In KwPropertyNames voc) by (apply done_mem in Hm; tauto).
        specialize (H KwPropertyNames m w eq_refl Hv Hm' Hw).
        destruct (nv_val w); try contradiction. exact (H key y Hin).
      + destruct (dget key (ov_data O)) as [n|] eqn:Hg.
        * unfold objv_of, oview in Hg. cbn [ov_data kw_key] in Hg.
          destruct (akw_mem KwProperties done) eqn:Hm; [|discriminate].
          destruct (applies_fam KwProperties eq_refl (done_applies _ Hm)) as (m & w & Hm' & Hw & Hop).
          assert (Hv : In KwProperties voc) by (apply done_mem in Hm; tauto).
          specialize (H KwProperties m w eq_refl Hv Hm' Hw). cbn [kw_key] in Hm'. rewrite Hm', Hw in Hg.
          destruct (nv_val w); try contradiction. exact (H key y Hin n Hg).
        * assert (Hnd : ~ declared view voc items key).
          { intro Hd. apply O_data in Hd. apply dget_None in Hg. contradiction. }
          split.
          -- intros pats Hp. apply O_pat in Hp as (Hv & m & w & H1 & H2 & H3).
             specialize (H KwPatternProperties m w eq_refl Hv H1 H2). rewrite H3 in H.
             rewrite Forall_forall. intros [p n] Hpn. exact (H key y Hin Hnd p n Hpn).
          -- destruct (akw_mem KwAdditionalProperties done) eqn:Hma.
             ++ destruct (applies_fam KwAdditionalProperties eq_refl (done_applies _ Hma)) as (m & w & Hm & Hw & Hop).
                assert (Hv : In KwAdditionalProperties voc) by (apply done_mem in Hma; tauto).
                pose proof (H KwAdditionalProperties m w eq_refl Hv Hm Hw) as Ha.
                assert (Hadd : ov_addl O = match nv_val w with NBool false => Some SFail | NObj _ => Some (SLazy m) | _ => None end).
                { unfold objv_of, oview, onode; cbn [ov_addl]. rewrite Hma, Hm, Hw.
                  destruct (nv_val w) as [|[]| | | |]; reflexivity. }
                unfold rest_ok. rewrite Hadd. destruct (nv_val w) as [|[]| | | |it] eqn:Hvw; try contradiction.
                ** destruct (ov_uneval O) eqn:Hun; [|right; reflexivity].
                   unfold objv_of, oview in Hun. cbn [ov_uneval] in Hun.
                   destruct (akw_mem KwUnevaluatedProperties done) eqn:Hmu; [|discriminate].
                   destruct (applies_fam KwUnevaluatedProperties eq_refl (done_applies _ Hmu)) as (mu & wu & Hmu' & Hwu & Hopu).
                   assert (Hvu : In KwUnevaluatedProperties voc) by (apply done_mem in Hmu; tauto).
                   pose proof (H KwUnevaluatedProperties mu wu eq_refl Hvu Hmu' Hwu) as Hu.
                   rewrite Hmu', Hwu in Hun. destruct (nv_val wu) as [|[]| | | |]; try contradiction; try discriminate.
                   destruct (Hu key y Hin) as [Hx|[Hx|Hx]]; [contradiction|left; apply O_matched; exact Hx|].
                   destruct Hx as (_ & n' & w' & Hn' & Hw' & Hne). cbn [kw_key] in Hm.
                   rewrite Hm in Hn'. injection Hn' as <-. congruence.
                ** destruct (Ha key y Hin) as [Hx|Hx]; [contradiction|left; apply O_matched; exact Hx].
                ** destruct (Ha key y Hin) as [Hx|[Hx|Hx]]; [contradiction|left; apply O_matched; exact Hx|right; exact Hx].
             ++ assert (Hadd : ov_addl O = None).
                { unfold objv_of; cbn [ov_addl]. rewrite Hma. reflexivity. }
                unfold rest_ok. rewrite Hadd.
                destruct (ov_uneval O) eqn:Hun; [|right; reflexivity].
                unfold objv_of, oview in Hun. cbn [ov_uneval] in Hun.
                destruct (akw_mem KwUnevaluatedProperties done) eqn:Hmu; [|discriminate].
                destruct (applies_fam KwUnevaluatedProperties eq_refl (done_applies _ Hmu)) as (mu & wu & Hmu' & Hwu & Hopu).
                assert (Hvu : In KwUnevaluatedProperties voc) by (apply done_mem in Hmu; tauto).
                pose proof (H KwUnevaluatedProperties mu wu eq_refl Hvu Hmu' Hwu) as Hu.
                rewrite Hmu', Hwu in Hun. destruct (nv_val wu) as [|[]| | | |]; try contradiction; try discriminate.
                destruct (Hu key y Hin) as [Hx|[Hx|Hx]]; [contradiction|left; apply O_matched; exact Hx|].
                destruct Hx as (Hva & n' & w' & Hn' & _).
                pose proof (proj2 (done_mem_voc KwAdditionalProperties n' Hn') Hva). congruence.
  Qed.

  Lemma table_demands d v c : Inv view strx E items done d ->
    Forall (fun ko => vholds (snd ko) v c) d <->
    (forall k m w, In k voc -> dget (kw_key k) items = Some m -> view m = Ok w ->
       demands k m (nv_val w) v c).
  Proof.
    intros [Hnd Hexp]. rewrite Forall_forall. split.
    - intros H k m w Hvoc Hm Hw.
      pose proof (proj2 (done_mem_voc k m Hm) Hvoc) as Hd.
      assert (Hin : In k done) by (apply akw_mem_In; exact Hd).
      destruct (is_own k) eqn:Hk.
      + apply own_demands; auto using done_applies. intros o Ho.
        pose proof (Hexp (kw_key k)) as He. rewrite expected_own, Hd, Ho in He by exact Hk.
        apply dget_In in He. exact (H _ He).
      + unfold is_own in Hk. destruct (is_fam k) eqn:Hf.
        * assert (Hall : all_demands v c is_fam).
          { apply fam_demands. pose proof (Hexp (u "properties")) as He. unfold expected in He.
            rewrite str_eqb_refl in He.
            assert (Hex : existsb is_fam done = true) by (apply existsb_exists; eauto).
            rewrite Hex in He. apply dget_In in He. exact (H _ He). }
          apply Hall; assumption.
        * simpl in Hk. apply negb_false_iff in Hk.
          assert (Hall : all_demands v c is_cond).
          { apply cond_demands. pose proof (Hexp (u "if")) as He. unfold expected in He.
            rewrite str_eqb_refl in He.
            assert (Hex : existsb is_cond done = true) by (apply existsb_exists; eauto).
            rewrite Hex in He. change (str_eqb (u "if") (u "properties")) with false in He.
            cbv iota in He. apply dget_In in He. exact (H _ He). }
          apply Hall; assumption.
    - intros H [key o] Hin. cbn [snd].
      apply (In_dget _ _ _ Hnd) in Hin. rewrite Hexp in Hin. unfold expected in Hin.
      destruct (str_eqb key (u "properties")) eqn:H1; [|destruct (str_eqb key (u "if")) eqn:H2].
      + destruct (existsb is_fam done); [|discriminate]. injection Hin as <-.
        apply fam_demands. intros k m w Hk. apply H.
      + destruct (existsb is_cond done); [|discriminate]. injection Hin as <-.
        apply cond_demands. intros k m w Hk. apply H.
      + destruct (find _ _) as [k|] eqn:Hf; [|discriminate].
        apply find_some in Hf as [Hin' Hkey]. apply filter_In in Hin' as [Hin' Hk].
        apply akw_mem_In in Hin'. pose proof (done_applies k Hin') as Hap.
        destruct (applies_view k Hap) as (m & w & Hm & Hw).
        assert (Hv : In k voc) by (apply done_mem in Hin'; tauto).
        apply (proj2 (own_demands k m w v c Hk Hm Hw Hap)); [|exact Hin].
        apply H; assumption.
  Qed.
End Object.

Section Master.
  Context {node : Type} (view : node -> res (nview node)) (strx : node -> pystr) (E : env).
  Variable voc : list akw.
  Hypothesis Hwf : wf_view view.
  Notation Accepts := (Accepts view strx E voc).
  Notation Rejects := (Rejects view strx E voc).

  Theorem accepts_object n w items v c : view n = Ok w -> nv_val w = NObj items ->
    Accepts n v c <->
    compiles view strx E voc n /\
    forall k m x, In k voc -> dget (kw_key k) items = Some m -> view m = Ok x ->
      demands view strx E voc Accepts Rejects items k m (nv_val x) v c.
  Proof.
    intros Hn Hw. rewrite accepts_table.
    assert (Hwfi : wf_operands view items) by (intros k n' w' m _ H1 H2; exact (Hwf n' w' m H1 H2)).
    split.
    - intros (d & Hd & Hf).
      destruct (compile_inv view strx E items Hwfi w Hw voc n d Hn Hd) as [HI Happ].
      split; [exists d; exact Hd|].
      apply (table_demands view strx E voc Accepts Rejects items Happ d v c HI). exact Hf.
    - intros [[d Hd] H]. exists d. split; [exact Hd|].
      destruct (compile_inv view strx E items Hwfi w Hw voc n d Hn Hd) as [HI Happ].
      apply (table_demands view strx E voc Accepts Rejects items Happ d v c HI). exact H.
  Qed.

  (** boolean schemas *)
  Theorem accepts_bool n w b v c : view n = Ok w -> nv_val w = NBool b ->
    Accepts n v c <-> b = true.
  Proof.
    intros Hn Hw. rewrite accepts_table. unfold compile. rewrite Hn. cbn [bind]. rewrite Hw.
    destruct b.
    - split; [reflexivity|]. intros _. exists []. split; [reflexivity|constructor].
    - split; [|discriminate]. intros (d & Hd & Hf). injection Hd as <-. inversion Hf; subst. contradiction.
  Qed.
End Master.
