(** C30: a schema object has no memory of earlier [validate] calls. *)
From Verif Require Import PyBase PyBaseFacts PyVal Errors Validators Keywords Memory KeywordFacts Master.
Local Open Scope Z_scope.

(** ** Loading twice *)
Section Reload.
  Context {node : Type} (view : node -> res (nview node)) (strx : node -> pystr) (E : env).
  Notation data := (list (pystr * vobj node node)).

  Lemma same_table (d d' : data) : NoDup (dkeys d) -> dkeys d' = dkeys d ->
    (forall k, dget k d' = dget k d) -> d' = d.
  Proof.
    revert d'; induction d as [|[k x] d IH]; intros [|[k' x'] d'] Hnd Hk Hg; try discriminate; [reflexivity|].
    simpl in Hk. injection Hk as -> Hk. inversion Hnd as [|? ? Hnot Hnd']; subst.
    assert (x' = x) as ->.
    { specialize (Hg k). simpl in Hg. rewrite str_eqb_refl in Hg. congruence. }
    f_equal. apply IH; [exact Hnd'|exact Hk|]. intro k0. specialize (Hg k0). simpl in Hg.
    destruct (str_eqb_spec k0 k) as [Heq|Hne]; [|exact Hg]. subst k0.
    assert (Hnot' : ~ In k (dkeys d')) by (unfold dkeys in *; rewrite Hk; exact Hnot).
    apply dget_None in Hnot'. apply dget_None in Hnot. congruence.
  Qed.

  Lemma apply_shape items k (d d' : data) : apply view strx E k items d = Ok d' ->
    d' = d \/ exists key o, d' = dset key o d.
  Proof.
    intro H. unfold apply in H. apply bind_Ok in H as (w & _ & H). apply bind_Ok in H as (n & _ & H).
    unfold put, put_objv, put_condv in H.
    destruct k;
      repeat first
        [ discriminate H
        | match type of H with Ok _ = Ok _ => injection H as <-; eauto end
        | apply bind_Ok in H as (? & _ & H)
        | match type of H with (let (_, _) := ?x in _) = _ => destruct x end
        | match type of H with (match nv_val ?w with _ => _ end) = _ => destruct (nv_val w) end
        | match type of H with (if ?b then _ else _) = _ => destruct b end
        | match type of H with (match fmt E ?f with _ => _ end) = _ => destruct (fmt E f) end ].
  Qed.

  Lemma akw_mem_cons_in k done k' : In k done -> akw_mem k' (k :: done) = akw_mem k' done.
  Proof.
    intro H. unfold akw_mem. simpl. destruct (akw_eq_dec k' k) as [->|]; [|reflexivity].
    simpl. symmetry. apply (akw_mem_In k done). exact H.
  Qed.
  Lemma existsb_cons_in {A} (p : A -> bool) x l : In x l -> existsb p (x :: l) = existsb p l.
  Proof.
    intro H. simpl. destruct (p x) eqn:Hp; [|reflexivity]. symmetry. apply existsb_exists. eauto.
  Qed.
  Lemma expected_again items done k : In k done ->
    forall key, expected view strx E items (k :: done) key = expected view strx E items done key.
  Proof.
    intros Hin key. unfold expected, objv_of, condv_of. rewrite !existsb_cons_in, !akw_mem_cons_in by exact Hin.
    destruct (str_eqb key (u "properties")); [reflexivity|]. destruct (str_eqb key (u "if")); [reflexivity|].
    assert (Hf : find (fun k0 => str_eqb key (kw_key k0)) (filter is_own (k :: done)) =
                 find (fun k0 => str_eqb key (kw_key k0)) (filter is_own done)).
    { simpl. destruct (is_own k) eqn:Ho; [|reflexivity]. simpl.
      destruct (str_eqb_spec key (kw_key k)) as [->|Hne]; [|reflexivity].
      destruct (find (fun k0 => str_eqb (kw_key k) (kw_key k0)) (filter is_own done)) as [k'|] eqn:Hf.
      - apply find_some in Hf as [_ Heq]. apply str_eqb_eq, kw_key_inj in Heq. subst; reflexivity.
      - exfalso. assert (Hin' : In k (filter is_own done)) by (apply filter_In; auto).
        pose proof (find_none _ _ Hf k Hin') as Hx. simpl in Hx. rewrite str_eqb_refl in Hx. discriminate. }
    rewrite Hf. reflexivity.
  Qed.

  Lemma apply_again items (Hwf : wf_operands view items) done d k :
    Inv view strx E items done d -> Forall (applies view strx E items) done -> In k done ->
    apply view strx E k items d = Ok d.
  Proof.
    intros HI Hf Hin.
    assert (Hl : ~ late_prefix k d).
    { rewrite (late_prefix_iff view strx E items done d k HI Hf). intros (-> & _ & Hn). contradiction. }
    pose proof (apply_step view strx E items Hwf done d k HI Hl) as Hs. unfold apply_spec in Hs.
    destruct (proj1 (Forall_forall _ _) Hf k Hin) as [d0 H0]. rewrite H0 in Hs.
    destruct Hs as (d' & H1 & [Hnd' Hg']). rewrite H1. f_equal.
    destruct HI as [Hnd Hg].
    assert (Hgg : forall key, dget key d' = dget key d).
    { intro key. rewrite Hg', Hg. apply expected_again; exact Hin. }
    apply same_table; [exact Hnd| |exact Hgg].
    destruct (apply_shape _ _ _ _ H1) as [->|(key & o & ->)]; [reflexivity|].
    rewrite dkeys_dset. specialize (Hgg key). rewrite dget_dset, str_eqb_refl in Hgg.
    unfold dmem. rewrite <- Hgg. reflexivity.
  Qed.

  Lemma run_kws_plain w l d d' : (forall items, nv_val w <> NObj items) ->
    run_kws view strx E w l d = Ok d' -> d' = d.
  Proof.
    intro Hno. revert d; induction l as [|k l IH]; simpl; intros d H; [congruence|].
    apply bind_Ok in H as (d1 & H1 & H). apply IH in H. subst d1.
    unfold step_kw in H1. apply bind_Ok in H1 as (b & _ & H1). destruct b; [|congruence].
    destruct (nv_val w); try discriminate. exfalso; eapply Hno; reflexivity.
  Qed.

  Lemma run_kws_again w l d : wf_view view -> (exists n, view n = Ok w) ->
    run_kws view strx E w l [] = Ok d -> run_kws view strx E w l d = Ok d.
  Proof.
    intros Hwf [n Hn] H.
    assert (Hcase : (exists items, nv_val w = NObj items) \/ (forall items, nv_val w <> NObj items)).
    { destruct (nv_val w); try (right; congruence). left; eauto. }
    destruct Hcase as [[items Hv]|Hno].
    - assert (Hwo : wf_operands view items).
      { intros k0 n0 w0 m _ H1 H2. exact (Hwf _ _ _ H1 H2). }
      destruct (run_kws_inv view strx E items Hwo w Hv l [] [] d (Inv_nil _ _ _ _) H) as [HI Hf].
      rewrite app_nil_r in HI.
      assert (Hf' : Forall (applies view strx E items) (rev (actives items l))).
      { apply Forall_rev. exact Hf. }
      assert (Hgen : forall l', (forall k, In k l' -> In k l) -> run_kws view strx E w l' d = Ok d).
      { induction l' as [|k l' IH]; intro Hl'; [reflexivity|]. simpl.
        unfold step_kw, can_apply. rewrite Hv. simpl.
        destruct (dmem (kw_key k) items) eqn:Hm.
        - rewrite (apply_again items Hwo (rev (actives items l)) d k HI Hf').
          + simpl. apply IH. intros; apply Hl'; right; assumption.
          + rewrite <- in_rev. apply filter_In. split; [apply Hl'; left; reflexivity|exact Hm].
        - simpl. apply IH. intros; apply Hl'; right; assumption. }
      apply Hgen. auto.
    - pose proof (run_kws_plain w l [] d Hno H) as ->. exact H.
  Qed.

  (** ** One load *)
  Definition fails {A} (r : res A) : Prop := forall x, r <> Ok x.
  Definition partial_table (voc : list akw) (n : node) (d : data) : Prop :=
    d = [] \/
    exists w l1 l2, view n = Ok w /\ (forall b, nv_val w <> NBool b) /\ voc = l1 ++ l2 /\
      run_kws view strx E w l1 [] = Ok d.

  Lemma run_kws_app w l1 l2 d :
    run_kws view strx E w (l1 ++ l2) d = bind (run_kws view strx E w l1 d) (run_kws view strx E w l2).
  Proof.
    revert d; induction l1 as [|k l1 IH]; intro d; [reflexivity|]. simpl.
    destruct (step_kw view strx E w k d); simpl; auto.
  Qed.
  Definition loads_as (voc : list akw) (n : node) (out : data * res unit) : Prop :=
    match out with
    | (d, Ok _) => compile view strx E voc n = Ok d
    | (d, Raise e) => compile view strx E voc n = Raise e /\ partial_table voc n d
    | (d, OutOfFuel) => compile view strx E voc n = OutOfFuel /\ partial_table voc n d
    end.
  Lemma load_kws_from w l d0 :
    match load_kws view strx E w l d0 with
    | (d, Ok _) => run_kws view strx E w l d0 = Ok d
    | (d, Raise e) => run_kws view strx E w l d0 = Raise e /\
        exists l1 k l2, l = l1 ++ k :: l2 /\ run_kws view strx E w l1 d0 = Ok d /\ fails (step_kw view strx E w k d)
    | (d, OutOfFuel) => run_kws view strx E w l d0 = OutOfFuel /\
        exists l1 k l2, l = l1 ++ k :: l2 /\ run_kws view strx E w l1 d0 = Ok d /\ fails (step_kw view strx E w k d)
    end.
  Proof.
    revert d0; induction l as [|k l IH]; intro d0; simpl; [reflexivity|].
    destruct (step_kw view strx E w k d0) as [d1|e|] eqn:Hs.
    - specialize (IH d1). destruct (load_kws view strx E w l d1) as [d [x|e|]]; simpl; [exact IH| |];
        destruct IH as (H1 & l1 & k' & l2 & -> & H2 & H3); (split; [exact H1|]);
        exists (k :: l1), k', l2; simpl; rewrite Hs; auto.
    - split; [reflexivity|]. exists [], k, l. simpl. repeat split; auto. intro; congruence.
    - split; [reflexivity|]. exists [], k, l. simpl. repeat split; auto. intro; congruence.
  Qed.

  Theorem load_ok voc n d0 : wf_view view -> partial_table voc n d0 ->
    loads_as voc n (load_lazy view strx E voc n d0).
  Proof.
    intros Hwf Hp. unfold load_lazy, loads_as, compile.
    destruct (view n) as [w|e|] eqn:Hn; simpl; [|split; auto|split; auto].
    assert (Hcase : (exists b, nv_val w = NBool b) \/ (forall b, nv_val w <> NBool b)).
    { destruct (nv_val w); try (right; congruence). left; eauto. }
    destruct Hcase as [[b Hb]|Hnb].
    - rewrite Hb. destruct Hp as [->|(w' & l1 & l2 & Hn' & Hnb & _)].
      + destruct b; reflexivity.
      + exfalso. assert (w' = w) by congruence. subst w'. apply (Hnb b Hb).
    - assert (Hm : forall A (x : bool -> A) (y : A), match nv_val w with NBool b => x b | _ => y end = y).
      { intros. destruct (nv_val w); try reflexivity. exfalso; eapply Hnb; reflexivity. }
      rewrite !Hm. destruct Hp as [->|(w' & l1 & l2 & Hn' & _ & Hvoc & Hrun)].
      + pose proof (load_kws_from w voc []) as H.
        destruct (load_kws view strx E w voc []) as [d [x|e|]]; [exact H| |];
          destruct H as (H1 & l1 & k & l2 & H2 & H3 & H4); (split; [exact H1|]);
          right; exists w, l1, (k :: l2); auto.
      + assert (w' = w) by congruence. subst w'.
        pose proof (run_kws_again w l1 d0 Hwf (ex_intro _ n Hn) Hrun) as Hagain.
        assert (Hsame : run_kws view strx E w voc d0 = run_kws view strx E w voc []).
        { rewrite Hvoc, !run_kws_app, Hrun, Hagain. reflexivity. }
        assert (Hpt : forall m1 k m2 d, voc = m1 ++ k :: m2 -> run_kws view strx E w m1 d0 = Ok d -> fails (step_kw view strx E w k d) -> partial_table voc n d).
        { intros m1 k m2 d E1 E2 F. right. exists w, m1, (k :: m2). split; [exact Hn|]. split; [exact Hnb|]. split; [exact E1|].
          rewrite Hvoc in E1. destruct (Nat.le_gt_cases (List.length l1) (List.length m1)) as [Hle|Hgt].
          - assert (Em : exists m, m1 = l1 ++ m).
            { exists (skipn (List.length l1) m1). rewrite <- (firstn_skipn (List.length l1) m1) at 1. f_equal.
              transitivity (firstn (List.length l1) (m1 ++ k :: m2)); [rewrite firstn_app, (proj2 (Nat.sub_0_le _ _) Hle), firstn_O, app_nil_r; reflexivity|].
              rewrite <- E1, firstn_app, firstn_all, Nat.sub_diag, firstn_O, app_nil_r. reflexivity. }
            destruct Em as [m ->]. rewrite run_kws_app, Hagain in E2. rewrite run_kws_app, Hrun. exact E2.
          - assert (El : exists m, l1 = m1 ++ k :: m).
            { exists (skipn (S (List.length m1)) l1). rewrite <- (firstn_skipn (S (List.length m1)) l1) at 1.
              assert (Ef : firstn (S (List.length m1)) l1 = m1 ++ [k]).
              { transitivity (firstn (S (List.length m1)) (l1 ++ l2)); [rewrite firstn_app, (proj2 (Nat.sub_0_le _ _) Hgt), firstn_O, app_nil_r; reflexivity|].
                rewrite E1. replace (S (List.length m1)) with (List.length (m1 ++ [k])) by (rewrite app_length; simpl; lia).
                change (k :: m2) with ([k] ++ m2). rewrite app_assoc, firstn_app, firstn_all, Nat.sub_diag, firstn_O, app_nil_r. reflexivity. }
              rewrite Ef, <- app_assoc. reflexivity. }
            destruct El as [m ->]. rewrite run_kws_app, E2 in Hagain. simpl in Hagain. destruct (step_kw view strx E w k d) as [x| |] eqn:Es; [exfalso; exact (F x eq_refl)|discriminate Hagain..]. }
        rewrite <- Hsame. pose proof (load_kws_from w voc d0) as H.
        destruct (load_kws view strx E w voc d0) as [d [x|e|]]; [exact H| |];
          destruct H as (H1 & m1 & k & m2 & H2 & H3 & H4); (split; [exact H1|]); eapply Hpt; eassumption.
  Qed.
End Reload.

(** ** Validator objects that stand for the same thing *)
Section Related.
  Context {node A B : Type} (R : A -> B -> Prop).
  Definition named (a : pystr * A) (b : pystr * B) : Prop := fst a = fst b /\ R (snd a) (snd b).
  Definition orel {X Y} (P : X -> Y -> Prop) (a : option X) (b : option Y) : Prop :=
    match a, b with None, None => True | Some x, Some y => P x y | _, _ => False end.
  Definition srel (a : sub A) (b : sub B) : Prop :=
    match a, b with SFail, SFail => True | SLazy x, SLazy y => R x y | _, _ => False end.
  Definition objrel (a : objv A) (b : objv B) : Prop :=
    Forall2 named (ov_data a) (ov_data b) /\ orel srel (ov_addl a) (ov_addl b) /\
    orel (Forall2 named) (ov_pat a) (ov_pat b) /\ ov_uneval a = ov_uneval b /\ orel R (ov_names a) (ov_names b).
  Definition condrel (a : condv A) (b : condv B) : Prop :=
    orel R (cv_if a) (cv_if b) /\ orel R (cv_then a) (cv_then b) /\ orel R (cv_else a) (cv_else b).
  Definition vrel (a : vobj node A) (b : vobj node B) : Prop :=
    match a, b with
    | VFail, VFail => True
    | VType x, VType y => x = y
    | VEnum x, VEnum y => x = y
    | VConst x, VConst y => x = y
    | VMaximum x e, VMaximum y f => x = y /\ e = f
    | VMinimum x e, VMinimum y f => x = y /\ e = f
    | VMultipleOf x, VMultipleOf y => x = y
    | VMinLength x, VMinLength y => x = y
    | VMaxLength x, VMaxLength y => x = y
    | VFormat x, VFormat y => x = y
    | VPattern x, VPattern y => x = y
    | VRequired x, VRequired y => x = y
    | VMinProps x, VMinProps y => x = y
    | VMaxProps x, VMaxProps y => x = y
    | VObject x, VObject y => objrel x y
    | VDepRequired x, VDepRequired y => x = y
    | VDepSchemas x, VDepSchemas y => Forall2 named x y
    | VArray x p, VArray y q => orel R x y /\ orel (Forall2 R) p q
    | VContains x mn mx, VContains y mn' mx' => R x y /\ mn = mn' /\ mx = mx'
    | VMinItems x, VMinItems y => x = y
    | VMaxItems x, VMaxItems y => x = y
    | VUnique, VUnique => True
    | VAllOf x, VAllOf y => Forall2 R x y
    | VAnyOf x, VAnyOf y => Forall2 R x y
    | VOneOf x, VOneOf y => Forall2 R x y
    | VNot x, VNot y => R x y
    | VCond x, VCond y => condrel x y
    | _, _ => False
    end.
  Definition trel : list (pystr * vobj node A) -> list (pystr * vobj node B) -> Prop :=
    Forall2 (fun a b => fst a = fst b /\ vrel (snd a) (snd b)).
  Lemma named_dget k a b : Forall2 named a b -> orel R (dget k a) (dget k b).
  Proof.
    induction 1 as [|[ka x] [kb y] a b [Hk Hr] _ IH]; simpl in *; [exact I|].
    subst kb. destruct (str_eqb k ka); [exact Hr|exact IH].
  Qed.
End Related.

Lemma Forall2_weaken {A B} (P Q : A -> B -> Prop) l m :
  (forall a b, P a b -> Q a b) -> Forall2 P l m -> Forall2 Q l m.
Proof. intros H; induction 1; constructor; auto. Qed.
Section Weaken.
  Context {node A B : Type} (R Q : A -> B -> Prop) (HRQ : forall a b, R a b -> Q a b).
  Lemma named_weaken a b : named R a b -> named Q a b.
  Proof. intros [H1 H2]. split; auto. Qed.
  Lemma orel_weaken {X Y} (P P' : X -> Y -> Prop) a b : (forall x y, P x y -> P' x y) -> orel P a b -> orel P' a b.
  Proof. destruct a, b; simpl; auto. Qed.
  Lemma vrel_weaken (a : vobj node A) (b : vobj node B) : vrel R a b -> vrel Q a b.
  Proof.
    assert (Hn : forall l m, Forall2 (named R) l m -> Forall2 (named Q) l m).
    { intros l m; apply Forall2_weaken. exact named_weaken. }
    assert (Hl : forall l m, Forall2 R l m -> Forall2 Q l m).
    { intros l m; apply Forall2_weaken. exact HRQ. }
    assert (Hs : forall x y, srel R x y -> srel Q x y) by (intros [] []; simpl; auto).
    destruct a, b; simpl; auto.
    - intros (H1 & H2 & H3 & H4 & H5). repeat split; auto; eapply orel_weaken; eauto.
    - intros [H1 H2]; split; eapply orel_weaken; eauto.
    - intros (H1 & H2 & H3); auto.
    - intros (H1 & H2 & H3). repeat split; eapply orel_weaken; eauto.
  Qed.
  Lemma trel_weaken (a : list (pystr * vobj node A)) b : trel R a b -> trel Q a b.
  Proof. apply Forall2_weaken. intros x y [H1 H2]. split; [exact H1|apply vrel_weaken; exact H2]. Qed.
End Weaken.

(** ** The stateful evaluator computes what the stateless one does *)
Section Simulation.
  Context {node : Type} (view : node -> res (nview node)) (strx : node -> pystr) (E : env).
  Variable voc : list akw.
  Hypothesis Hwf : wf_view view.
  Notation heap := (@heap node).

  Definition stands (h : heap) (l : lid) (n : node) : Prop := (l < next h)%nat /\ c_node (cells h l) = n.
  Definition good_cell (h : heap) (x : cell) : Prop :=
    match c_state x with
    | Building d => partial_table view strx E voc (c_node x) d
    | Ready d' => exists d, compile view strx E voc (c_node x) = Ok d /\ trel (stands h) d' d
    end.
  Definition good (h : heap) : Prop := forall l, (l < next h)%nat -> good_cell h (cells h l).
  Definition ext (h h' : heap) : Prop :=
    (next h <= next h')%nat /\ forall l, (l < next h)%nat -> c_node (cells h' l) = c_node (cells h l).
  Definition grow (h h' : heap) : Prop :=
    (next h <= next h')%nat /\ forall l, (l < next h)%nat -> cells h' l = cells h l.

  Lemma ext_refl h : ext h h. Proof. split; auto. Qed.
  Lemma ext_trans a b c : ext a b -> ext b c -> ext a c.
  Proof. intros [H1 H2] [H3 H4]. split; [lia|]. intros l Hl. rewrite H4 by lia. auto. Qed.
  Lemma grow_refl h : grow h h. Proof. split; auto. Qed.
  Lemma grow_trans a b c : grow a b -> grow b c -> grow a c.
  Proof. intros [H1 H2] [H3 H4]. split; [lia|]. intros l Hl. rewrite H4 by lia. auto. Qed.
  Lemma grow_ext a b : grow a b -> ext a b.
  Proof. intros [H1 H2]. split; [exact H1|]. intros l Hl. rewrite H2 by exact Hl. reflexivity. Qed.
  Lemma stands_ext h h' l n : ext h h' -> stands h l n -> stands h' l n.
  Proof. intros [H1 H2] [H3 H4]. split; [lia|]. rewrite H2 by exact H3. exact H4. Qed.
  Lemma good_cell_ext h h' x : ext h h' -> good_cell h x -> good_cell h' x.
  Proof.
    intro He. unfold good_cell. destruct (c_state x); [auto|]. intros (d0 & H1 & H2). exists d0. split; [exact H1|].
    eapply trel_weaken; [|exact H2]. intros. eapply stands_ext; eassumption.
  Qed.

  (** *** allocation *)
  Definition allocates {X Y} (f : X -> heap -> heap * Y) (P : heap -> Y -> X -> Prop) : Prop :=
    forall x h, good h -> let (h', y) := f x h in good h' /\ grow h h' /\ P h' y x.
  Lemma alloc_ok : allocates alloc stands.
  Proof.
    intros n h Hg. unfold alloc.
    assert (Hgr : grow h (Heap (fun i => if Nat.eqb i (next h) then Cell n (Building []) else cells h i) (S (next h)))).
    { split; simpl; [lia|]. intros l Hl. destruct (Nat.eqb_spec l (next h)); [lia|reflexivity]. }
    split; [|split; [exact Hgr|]].
    - intros l Hl. simpl in Hl |- *. destruct (Nat.eqb_spec l (next h)) as [->|Hne].
      + unfold good_cell; simpl. left; reflexivity.
      + apply (good_cell_ext h); [apply grow_ext; exact Hgr|]. apply Hg. lia.
    - split; simpl; [lia|]. rewrite Nat.eqb_refl. reflexivity.
  Qed.
  Lemma alloc_list_ok : allocates alloc_list (fun h => Forall2 (stands h)).
  Proof.
    intro l; induction l as [|n l IH]; intros h Hg; cbn [alloc_list]; [split; [exact Hg|split; [apply grow_refl|constructor]]|].
    pose proof (alloc_ok n h Hg) as Ha. destruct (alloc n h) as [h1 x]. destruct Ha as (Hg1 & Hr1 & Hs1).
    specialize (IH h1 Hg1). destruct (alloc_list l h1) as [h2 xs]. destruct IH as (Hg2 & Hr2 & Hs2).
    split; [exact Hg2|]. split; [eapply grow_trans; eassumption|]. constructor; [|exact Hs2].
    eapply stands_ext; [apply grow_ext; exact Hr2|exact Hs1].
  Qed.
  Lemma alloc_assoc_ok : allocates alloc_assoc (fun h => Forall2 (named (stands h))).
  Proof.
    intro l; induction l as [|[k n] l IH]; intros h Hg; cbn [alloc_assoc]; [split; [exact Hg|split; [apply grow_refl|constructor]]|].
    pose proof (alloc_ok n h Hg) as Ha. destruct (alloc n h) as [h1 x]. destruct Ha as (Hg1 & Hr1 & Hs1).
    specialize (IH h1 Hg1). destruct (alloc_assoc l h1) as [h2 xs]. destruct IH as (Hg2 & Hr2 & Hs2).
    split; [exact Hg2|]. split; [eapply grow_trans; eassumption|]. constructor; [|exact Hs2].
    split; [reflexivity|]. eapply stands_ext; [apply grow_ext; exact Hr2|exact Hs1].
  Qed.
  Lemma alloc_sub_ok : allocates alloc_sub (fun h => srel (stands h)).
  Proof.
    intros [|n] h Hg; cbn [alloc_sub]; [split; [exact Hg|split; [apply grow_refl|exact I]]|].
    pose proof (alloc_ok n h Hg) as Ha. destruct (alloc n h) as [h1 x]. exact Ha.
  Qed.
  Lemma alloc_opt_ok {X Y} (f : X -> heap -> heap * Y) P : allocates f P ->
    allocates (alloc_opt f) (fun h => orel (P h)).
  Proof.
    intros Hf [x|] h Hg; cbn [alloc_opt]; [|split; [exact Hg|split; [apply grow_refl|exact I]]].
    pose proof (Hf x h Hg) as Ha. destruct (f x h) as [h1 y]. exact Ha.
  Qed.
  Lemma named_stands_ext h h' l m : ext h h' -> Forall2 (named (stands h)) l m -> Forall2 (named (stands h')) l m.
  Proof. intro He. apply Forall2_weaken. intros a b. apply named_weaken. intros; eapply stands_ext; eassumption. Qed.
  Lemma list_stands_ext h h' l m : ext h h' -> Forall2 (stands h) l m -> Forall2 (stands h') l m.
  Proof. intro He. apply Forall2_weaken. intros; eapply stands_ext; eassumption. Qed.
  Lemma srel_stands_ext h h' a b : ext h h' -> srel (stands h) a b -> srel (stands h') a b.
  Proof. intro He. destruct a, b; simpl; auto. apply stands_ext; exact He. Qed.

  Ltac step lem :=
    match goal with
    | Hg : good ?h |- _ =>
        match type of lem with
        | allocates ?f _ =>
            match goal with
            | |- context [f ?x h] =>
                let Ha := fresh "Ha" in
                pose proof (lem x h Hg) as Ha; destruct (f x h) as [? ?]; destruct Ha as (? & ? & ?); clear Hg
            end
        end
    end.
  Ltac exts := repeat match goal with H : grow ?a ?b |- _ => apply grow_ext in H end.
  Lemma alloc_vobj_ok : allocates alloc_vobj (fun h => vrel (stands h)).
  Proof.
    intros o h Hg. destruct o; cbn [alloc_vobj];
      try (split; [exact Hg|]; split; [apply grow_refl|]; simpl; auto; fail).
    - step alloc_assoc_ok. step (alloc_opt_ok _ _ alloc_sub_ok). step (alloc_opt_ok _ _ alloc_assoc_ok).
      step (alloc_opt_ok _ _ alloc_ok). split; [assumption|]. split; [eauto using grow_trans|].
      exts.
      repeat split; simpl; auto.
      + eapply named_stands_ext; [|eassumption]. eauto using ext_trans.
      + eapply orel_weaken; [|eassumption]. intros. eapply srel_stands_ext; [|eassumption]. eauto using ext_trans.
      + eapply orel_weaken; [|eassumption]. intros. eapply named_stands_ext; [|eassumption]. eauto using ext_trans.
    - step alloc_assoc_ok. simpl; auto 6.
    - step (alloc_opt_ok _ _ alloc_ok). step (alloc_opt_ok _ _ alloc_list_ok).
      split; [assumption|]. split; [eauto using grow_trans|]. split; [|assumption].
      eapply orel_weaken; [|eassumption]. intros. eapply stands_ext; [|eassumption]. apply grow_ext; assumption.
    - step alloc_ok. simpl; auto 6.
    - step alloc_list_ok. simpl; auto 6.
    - step alloc_list_ok. simpl; auto 6.
    - step alloc_list_ok. simpl; auto 6.
    - step alloc_ok. simpl; auto 6.
    - step (alloc_opt_ok _ _ alloc_ok). step (alloc_opt_ok _ _ alloc_ok). step (alloc_opt_ok _ _ alloc_ok).
      split; [assumption|]. split; [eauto using grow_trans|].
      exts.
      repeat split; simpl; auto; (eapply orel_weaken; [|eassumption]); intros; (eapply stands_ext; [|eassumption]);
        eauto using ext_trans.
  Qed.
  Lemma alloc_table_ok : allocates alloc_table (fun h => trel (stands h)).
  Proof.
    intro d; induction d as [|[k o] d IH]; intros h Hg; cbn [alloc_table]; [split; [exact Hg|split; [apply grow_refl|constructor]]|].
    pose proof (alloc_vobj_ok o h Hg) as Ha. destruct (alloc_vobj o h) as [h1 x]. destruct Ha as (Hg1 & Hr1 & Hs1).
    specialize (IH h1 Hg1). destruct (alloc_table d h1) as [h2 xs]. destruct IH as (Hg2 & Hr2 & Hs2).
    split; [exact Hg2|]. split; [eapply grow_trans; eassumption|]. constructor; [|exact Hs2].
    split; [reflexivity|]. eapply vrel_weaken; [|exact Hs1]. intros.
    eapply stands_ext; [apply grow_ext; exact Hr2|eassumption].
  Qed.

  (** *** runs *)
  Definition sim {X} (h0 : heap) (m : M X) (r : res X) : Prop :=
    forall h, good h -> ext h0 h -> exists h', m h = (h', r) /\ good h' /\ ext h h'.
  Lemma sim_ret {X} h0 (r : res X) : sim h0 (retM r) r.
  Proof. intros h Hg _. exists h. split; [reflexivity|]. split; [exact Hg|apply ext_refl]. Qed.
  Lemma sim_bind {X Y} h0 (m : M X) r (k : X -> M Y) k' :
    sim h0 m r -> (forall x, sim h0 (k x) (k' x)) -> sim h0 (bindM m k) (bind r k').
  Proof.
    intros Hm Hk h Hg He. destruct (Hm h Hg He) as (h1 & H1 & Hg1 & He1). unfold bindM. rewrite H1.
    destruct r as [x|e|]; simpl; [|exists h1; auto|exists h1; auto].
    destruct (Hk x h1 Hg1 (ext_trans _ _ _ He He1)) as (h2 & H2 & Hg2 & He2).
    exists h2. split; [exact H2|]. split; [exact Hg2|eapply ext_trans; eassumption].
  Qed.
  Lemma sim_try h0 m r : sim h0 m r -> sim h0 (tryM m) (try_valid r).
  Proof.
    intros Hm h Hg He. destruct (Hm h Hg He) as (h1 & H1 & H2). unfold tryM. rewrite H1. eauto.
  Qed.
  Lemma sim_for {X Y} h0 (P : X -> Y -> Prop) (f : X -> M unit) g l m :
    (forall a b, P a b -> sim h0 (f a) (g b)) -> Forall2 P l m -> sim h0 (forM f l) (for_each g m).
  Proof.
    intros Hf. induction 1; simpl; [apply sim_ret|]. apply sim_bind; [auto|intros _; assumption].
  Qed.
  Lemma sim_ext {X} h0 h1 (m : M X) r : ext h0 h1 -> sim h0 m r -> sim h1 m r.
  Proof. intros He Hm h Hg Hh. apply Hm; [exact Hg|eapply ext_trans; eassumption]. Qed.

  Section Run.
    Variables (recM : lid -> pv -> ctx -> @M node unit) (rec : node -> pv -> ctx -> res unit) (h0 : heap).
    Hypothesis Hrec : forall l n v c, stands h0 l n -> sim h0 (recM l v c) (rec n v c).
    Notation R := (stands h0).

    Lemma sim_pattern a b k x c ev : Forall2 (named R) a b ->
      sim h0 (pattern_loopM E recM a k x c ev) (pattern_loop E rec b k x c ev).
    Proof.
      intro H. revert ev. induction H as [|[p l] [q n] a b [Hk Hr] _ IH]; intro ev; simpl; [apply sim_ret|].
      simpl in Hk, Hr. subst q. destruct (re_ok E p); [|apply sim_ret].
      destruct (re_search E p k); [|apply IH]. apply sim_bind; [apply Hrec; exact Hr|intros _; apply IH].
    Qed.
    Lemma sim_member a b c kx : objrel R a b -> sim h0 (member_validateM E recM a c kx) (member_validate E rec b c kx).
    Proof.
      intros (H1 & H2 & H3 & H4 & H5). destruct kx as [k x]. unfold member_validateM, member_validate.
      apply sim_bind.
      - destruct (ov_names a), (ov_names b); try contradiction; [apply Hrec; exact H5|apply sim_ret].
      - intros _. pose proof (named_dget R k _ _ H1) as Hd.
        destruct (dget k (ov_data a)), (dget k (ov_data b)); try contradiction; [apply Hrec; exact Hd|].
        apply sim_bind.
        + destruct (ov_pat a), (ov_pat b); try contradiction; [apply sim_pattern; exact H3|apply sim_ret].
        + intros [|]; [apply sim_ret|]. rewrite H4.
          destruct (ov_addl a) as [[|]|], (ov_addl b) as [[|]|]; try contradiction; simpl;
            try apply sim_ret; [apply Hrec; exact H2|]. destruct (ov_uneval b); apply sim_ret.
    Qed.
    Lemma Forall2_nth {X Y} (P : X -> Y -> Prop) a b i : Forall2 P a b -> orel P (nth_error a i) (nth_error b i).
    Proof. intro H. revert i. induction H; intros [|i]; simpl; auto. Qed.
    Lemma sim_prefix lf a b vals i c : Forall2 R a b ->
      sim h0 (prefix_loopM recM lf a vals i c) (prefix_loop rec lf b vals i c).
    Proof.
      intro H. revert i. induction lf as [|lf IH]; intro i; simpl; [apply sim_ret|].
      pose proof (Forall2_nth _ _ _ i H) as Hi.
      destruct (nth_error a i), (nth_error b i); try contradiction; [|apply sim_ret].
      destruct (nth_error vals i); (apply sim_bind; [apply Hrec; exact Hi|intros _; apply IH]).
    Qed.
    Lemma sim_items l n vals i c : R l n -> sim h0 (items_loopM recM l vals i c) (items_loop rec n vals i c).
    Proof.
      intro H. revert i. induction vals as [|x vals IH]; intro i; simpl; [apply sim_ret|].
      apply sim_bind; [apply Hrec; exact H|intros _; apply IH].
    Qed.
    Lemma sim_count l n xs : R l n -> sim h0 (count_validM recM l xs) (count_valid rec n xs).
    Proof.
      intro H. induction xs as [|x xs IH]; simpl; [apply sim_ret|].
      apply sim_bind; [apply sim_try, Hrec; exact H|]. intro r. apply sim_bind; [exact IH|]. intro k. apply sim_ret.
    Qed.
    Lemma sim_anyof a b v c last : Forall2 R a b -> sim h0 (anyof_loopM recM a v c last) (anyof_loop rec b v c last).
    Proof.
      intro H. revert last. induction H as [|l n a b Hr _ IH]; intro last; simpl; [apply sim_ret|].
      apply sim_bind; [apply sim_try, Hrec; exact Hr|]. intros [e|]; [apply IH|apply sim_ret].
    Qed.
    Lemma sim_oneof a b v c k last : Forall2 R a b ->
      sim h0 (oneof_loopM recM a v c k last) (oneof_loop rec b v c k last).
    Proof.
      intro H. revert k last. induction H as [|l n a b Hr _ IH]; intros k last; simpl; [apply sim_ret|].
      apply sim_bind; [apply sim_try, Hrec; exact Hr|]. intros [e|]; apply IH.
    Qed.
    Lemma sim_cond a b v c : condrel R a b -> sim h0 (cond_validateM recM a v c) (cond_validate rec b v c).
    Proof.
      intros (H1 & H2 & H3). unfold cond_validateM, cond_validate.
      destruct (cv_if a), (cv_if b); try contradiction; [|apply sim_ret].
      apply sim_bind; [apply sim_try, Hrec; exact H1|]. intros [e|].
      - destruct (cv_else a), (cv_else b); try contradiction; [apply Hrec; exact H3|apply sim_ret].
      - destruct (cv_then a), (cv_then b); try contradiction; [apply Hrec; exact H2|apply sim_ret].
    Qed.
    Lemma sim_run lf (a : vobj node lid) (b : vobj node node) v c : vrel R a b ->
      sim h0 (run_vobjM view E recM lf a v c) (run_vobj view E rec lf b v c).
    Proof.
      destruct a, b; simpl; intro H; try contradiction;
        repeat match goal with H : _ /\ _ |- _ => destruct H end; subst; try apply sim_ret.
      - unfold object_validateM, object_validate. destruct v; try apply sim_ret.
        apply (sim_for h0 eq); [|clear; induction d; constructor; auto]. intros x y <-. apply sim_member; exact H.
      - unfold dep_schemas_validateM, dep_schemas_validate. destruct v; try apply sim_ret.
        apply (sim_for h0 (named R)); [|exact H]. intros [k l] [k' n] [Hk Hr]. simpl in Hk, Hr. subst k'.
        destruct (dmem k d); [apply Hrec; exact Hr|apply sim_ret].
      - unfold array_validateM, array_validate. destruct v; try apply sim_ret.
        apply sim_bind.
        + destruct prefix as [a|], prefix0 as [b|]; try contradiction; [|apply sim_ret].
          destruct H0 as [|x y a b Hxy Hab]; [apply sim_ret|]. apply sim_prefix. constructor; assumption.
        + intro i. destruct items as [a|], items0 as [b|]; try contradiction; [|apply sim_ret].
          apply sim_items. exact H.
      - unfold contains_validateM, contains_validate. apply sim_bind; [apply sim_ret|]. intro l.
        apply sim_bind; [apply sim_count; exact H|]. intro k. apply sim_ret.
      - apply (sim_for h0 R); [|exact H]. intros x y Hxy. apply Hrec; exact Hxy.
      - apply sim_anyof; exact H.
      - apply sim_oneof; exact H.
      - unfold not_validateM, not_validate. apply sim_bind; [apply sim_try, Hrec; exact H|].
        intros [e|]; apply sim_ret.
      - apply sim_cond; exact H.
    Qed.
  End Run.

  Lemma good_set h l x : good h -> (l < next h)%nat -> c_node x = c_node (cells h l) -> good_cell h x ->
    good (set_cell l x h) /\ ext h (set_cell l x h).
  Proof.
    intros Hg Hl Hn Hx.
    assert (He : ext h (set_cell l x h)).
    { split; simpl; [lia|]. intros i Hi. destruct (Nat.eqb_spec i l) as [->|]; [exact Hn|reflexivity]. }
    split; [|exact He]. intros i Hi. apply (good_cell_ext h); [exact He|]. simpl in *.
    destruct (Nat.eqb_spec i l); [exact Hx|apply Hg; exact Hi].
  Qed.

  Theorem validateM_sim fuel : forall l n v c h0, stands h0 l n ->
    sim h0 (validateM view strx E voc fuel l v c) (validate view strx E voc fuel n v c).
  Proof.
    induction fuel as [|f IH]; intros l n v c h0 Hs h Hg He.
    - exists h. split; [reflexivity|]. split; [exact Hg|apply ext_refl].
    - assert (Hs' : stands h l n) by (eapply stands_ext; eassumption).
      destruct Hs' as [Hl Hn]. pose proof (Hg l Hl) as Hc. unfold good_cell in Hc. rewrite Hn in Hc.
      assert (Hrun : forall h1 d' d, good h1 -> trel (stands h1) d' d ->
        exists h', forM (fun kv => run_vobjM view E (validateM view strx E voc f) f (snd kv) v c) d' h1 =
          (h', for_each (fun kv => run_vobj view E (validate view strx E voc f) f (snd kv) v c) d) /\
          good h' /\ ext h1 h').
      { intros h1 d' d Hg1 Ht.
        refine (sim_for h1 (fun a b => fst a = fst b /\ vrel (stands h1) (snd a) (snd b)) _ _ d' d _ Ht h1 Hg1 (ext_refl h1)).
        intros a b [_ Hab]. apply sim_run; [|exact Hab]. intros l1 n1 v1 c1 Hs1. apply IH. exact Hs1. }
      cbn [validateM validate]. destruct (c_state (cells h l)) as [d0|d'] eqn:Hst.
      + rewrite Hn. pose proof (load_ok view strx E voc n d0 Hwf Hc) as Hload. unfold loads_as in Hload.
        destruct (load_lazy view strx E voc n d0) as [d [x|e|]].
        * rewrite Hload. simpl. pose proof (alloc_table_ok d h Hg) as Ha.
          destruct (alloc_table d h) as [h1 d']. destruct Ha as (Hg1 & Hgr & Ht).
          destruct (good_set h1 l (Cell n (Ready d')) Hg1) as [Hg2 He2].
          -- destruct Hgr; lia.
          -- simpl. rewrite (proj2 Hgr) by exact Hl. symmetry; exact Hn.
          -- unfold good_cell; simpl. eauto.
          -- destruct (Hrun (set_cell l (Cell n (Ready d')) h1) d' d Hg2) as (h3 & H3 & Hg3 & He3).
             { eapply trel_weaken; [|exact Ht]. intros; eapply stands_ext; eassumption. }
             exists h3. split; [exact H3|]. split; [exact Hg3|].
             eapply ext_trans; [apply grow_ext; exact Hgr|]. eapply ext_trans; eassumption.
        * destruct Hload as [Hr Hp]. rewrite Hr. simpl.
          destruct (good_set h l (Cell n (Building d)) Hg Hl) as [Hg2 He2]; [symmetry; exact Hn|exact Hp|eauto].
        * destruct Hload as [Hr Hp]. rewrite Hr. simpl.
          destruct (good_set h l (Cell n (Building d)) Hg Hl) as [Hg2 He2]; [symmetry; exact Hn|exact Hp|eauto].
      + destruct Hc as (d & Hcomp & Ht). rewrite Hcomp. simpl. apply Hrun; assumption.
  Qed.

  Lemma fresh_good n : good (fresh n).
  Proof. intros l Hl. left; reflexivity. Qed.
  Lemma after_good calls n : forall h, good h -> stands h 0%nat n ->
    good (after view strx E voc calls h) /\ stands (after view strx E voc calls h) 0%nat n.
  Proof.
    induction calls as [|[fuel v] calls IH]; intros h Hg Hs; [auto|]. simpl.
    destruct (validateM_sim fuel 0%nat n v [] h Hs h Hg (ext_refl h)) as (h' & H1 & Hg' & He).
    rewrite H1. simpl. apply IH; [exact Hg'|eapply stands_ext; eassumption].
  Qed.

  (** ** C30.  [calls] is any history of [validate] calls, each with its own
      value and its own remaining stack depth, whatever they returned or
      raised.  The next call's outcome is that of the first call on a fresh
      schema object, which is what the stateless evaluator says. *)
  Theorem C30_no_memory n calls fuel v :
    snd (validateM view strx E voc fuel 0%nat v [] (after view strx E voc calls (fresh n))) =
    snd (validateM view strx E voc fuel 0%nat v [] (fresh n)).
  Proof.
    assert (Hs : stands (fresh n) 0%nat n) by (split; simpl; [lia|reflexivity]).
    destruct (after_good calls n (fresh n) (fresh_good n) Hs) as [Hg Hs'].
    destruct (validateM_sim fuel 0%nat n v [] _ Hs' _ Hg (ext_refl _)) as (h1 & H1 & _).
    destruct (validateM_sim fuel 0%nat n v [] _ Hs _ (fresh_good n) (ext_refl _)) as (h2 & H2 & _).
    rewrite H1, H2. reflexivity.
  Qed.
  Theorem C30_stateless n calls fuel v :
    snd (validateM view strx E voc fuel 0%nat v [] (after view strx E voc calls (fresh n))) =
    validate view strx E voc fuel n v [].
  Proof.
    assert (Hs : stands (fresh n) 0%nat n) by (split; simpl; [lia|reflexivity]).
    destruct (after_good calls n (fresh n) (fresh_good n) Hs) as [Hg Hs'].
    destruct (validateM_sim fuel 0%nat n v [] _ Hs' _ Hg (ext_refl _)) as (h1 & H1 & _).
    rewrite H1. reflexivity.
  Qed.
End Simulation.
