(** The validators built from a schema object: what ends up in the compiled
    validator table, independent of the order keywords are processed in. *)
From Verif Require Import PyBase PyBaseFacts PyVal Errors Validators Keywords Spec LeafFacts Mono RunFacts.
From Coq Require Import QArith.
Local Open Scope Z_scope.

Lemma akw_eq_dec (a b : akw) : {a = b} + {a <> b}.
Proof. decide equality. Defined.
Definition akw_mem (k : akw) (l : list akw) : bool :=
  existsb (fun k' => if akw_eq_dec k k' then true else false) l.
Lemma akw_mem_In k l : akw_mem k l = true <-> In k l.
Proof.
  unfold akw_mem. rewrite existsb_exists. split.
  - intros (k' & Hin & H). destruct (akw_eq_dec k k'); [subst; exact Hin|discriminate].
  - intro H. exists k. split; [exact H|]. destruct (akw_eq_dec k k); congruence.
Qed.

Lemma kw_key_inj a b : kw_key a = kw_key b -> a = b.
Proof.
  intro H. assert (Hb : str_eqb (kw_key a) (kw_key b) = true) by (apply str_eqb_eq; exact H).
  clear H. destruct a; destruct b; try reflexivity; exfalso; vm_compute in Hb; discriminate.
Qed.

(** the keywords that share the ["properties"] validator, and the ["if"] one *)
Definition is_fam (k : akw) : bool :=
  match k with
  | KwAdditionalProperties | KwPatternProperties | KwProperties | KwPropertyNames
  | KwUnevaluatedProperties => true
  | _ => false
  end.
Definition is_cond (k : akw) : bool :=
  match k with KwIf | KwThen | KwElse => true | _ => false end.
Definition is_own (k : akw) : bool := negb (is_fam k) && negb (is_cond k).

Lemma own_not_properties k : is_own k = true -> kw_key k <> u "properties".
Proof. intros H Hk. apply (kw_key_inj k KwProperties) in Hk. subst; discriminate. Qed.
Lemma own_not_if k : is_own k = true -> kw_key k <> u "if".
Proof. intros H Hk. apply (kw_key_inj k KwIf) in Hk. subst; discriminate. Qed.

Lemma fold_dset_in {A} (m d : list (pystr * A)) :
  NoDup (dkeys d) -> (forall k x, In (k, x) m -> dget k d = Some x) ->
  fold_left (fun acc kn => dset (fst kn) (snd kn) acc) m d = d.
Proof.
  intro Hnd. induction m as [|[k x] m IH]; simpl; intro H; [reflexivity|].
  rewrite dset_same; [|apply H; left; reflexivity|exact Hnd]. apply IH. intros; apply H; right; assumption.
Qed.
Lemma fold_dset_nil_gen {A} (m d : list (pystr * A)) :
  NoDup (dkeys (d ++ m)) ->
  fold_left (fun acc kn => dset (fst kn) (snd kn) acc) m d = d ++ m.
Proof.
  revert d; induction m as [|[k x] m IH]; intros d Hnd; simpl; [rewrite app_nil_r; reflexivity|].
  assert (Hk : ~ In k (dkeys d)).
  { unfold dkeys in *. rewrite map_app in Hnd. simpl in Hnd. apply NoDup_remove_2 in Hnd.
    intro Hin; apply Hnd, in_or_app; left; exact Hin. }
  assert (Hs : dset k x d = d ++ [(k, x)]).
  { clear -Hk. induction d as [|[k' x'] d IHd]; [reflexivity|]. simpl in *.
    destruct (str_eqb_spec k k') as [->|Hne]; [exfalso; apply Hk; left; reflexivity|].
    f_equal. apply IHd. intro; apply Hk; right; assumption. }
  rewrite Hs, IH; rewrite <- app_assoc; [reflexivity|exact Hnd].
Qed.
Lemma fold_dset_nil {A} (m : list (pystr * A)) : NoDup (dkeys m) ->
  fold_left (fun acc kn => dset (fst kn) (snd kn) acc) m [] = m.
Proof. intro H. apply fold_dset_nil_gen; exact H. Qed.
Lemma fold_dset_self {A} (m : list (pystr * A)) : NoDup (dkeys m) ->
  fold_left (fun acc kn => dset (fst kn) (snd kn) acc) m m = m.
Proof. intro H. apply fold_dset_in; [exact H|]. intros; apply In_dget; assumption. Qed.

Section Graph.
  Context {node : Type}.
  Variable view : node -> res (nview node).
  Variable strx : node -> pystr.
  Variable E : env.
  Variable items : list (pystr * node).
  Notation data := (list (pystr * vobj node node)).

  (** object operands are dictionaries *)
  Definition wf_operands : Prop :=
    forall k n w m, dget k items = Some n -> view n = Ok w -> nv_val w = NObj m -> NoDup (dkeys m).
  Hypothesis Hwf : wf_operands.

  Definition oview (k : akw) : option (nval node) :=
    match dget (kw_key k) items with
    | Some n => match view n with Ok w => Some (nv_val w) | _ => None end
    | None => None
    end.
  Definition onode (k : akw) : option node := dget (kw_key k) items.

  Definition objv_of (done : list akw) : objv node :=
    ObjV
      (if akw_mem KwProperties done
       then match oview KwProperties with Some (NObj m) => m | _ => [] end else [])
      (if akw_mem KwAdditionalProperties done
       then match oview KwAdditionalProperties with
            | Some (NBool false) => Some SFail
            | Some (NObj _) => option_map SLazy (onode KwAdditionalProperties)
            | _ => None
            end
       else None)
      (if akw_mem KwPatternProperties done
       then match oview KwPatternProperties with Some (NObj m) => Some m | _ => None end else None)
      (if akw_mem KwUnevaluatedProperties done
       then match oview KwUnevaluatedProperties with Some (NBool false) => true | _ => false end
       else false)
      (if akw_mem KwPropertyNames done then onode KwPropertyNames else None).
  Definition condv_of (done : list akw) : condv node :=
    CondV (if akw_mem KwIf done then onode KwIf else None)
          (if akw_mem KwThen done then onode KwThen else None)
          (if akw_mem KwElse done then onode KwElse else None).

  Notation apply := (apply view strx E).
  Definition own_result (k : akw) : option (vobj node node) :=
    match apply k items [] with Ok d0 => dget (kw_key k) d0 | _ => None end.

  Definition expected (done : list akw) (key : pystr) : option (vobj node node) :=
    if str_eqb key (u "properties") then
      if existsb is_fam done then Some (VObject (objv_of done)) else None
    else if str_eqb key (u "if") then
      if existsb is_cond done then Some (VCond (condv_of done)) else None
    else match find (fun k => str_eqb key (kw_key k)) (filter is_own done) with
         | Some k => own_result k
         | None => None
         end.

  Definition Inv (done : list akw) (d : data) : Prop :=
    NoDup (dkeys d) /\ forall key, dget key d = expected done key.

  Lemma Inv_nil : Inv [] [].
  Proof.
    split; [constructor|]. intro key. unfold expected. simpl.
    destruct (str_eqb key (u "properties")), (str_eqb key (u "if")); reflexivity.
  Qed.

  Lemma objv_of_none done : existsb is_fam done = false -> objv_of done = empty_objv.
  Proof.
    intro H. assert (Hn : forall k, is_fam k = true -> akw_mem k done = false).
    { intros k Hk. destruct (akw_mem k done) eqn:Hm; [|reflexivity].
      apply akw_mem_In in Hm. assert (existsb is_fam done = true) by (apply existsb_exists; eauto). congruence. }
    unfold objv_of. rewrite !Hn by reflexivity. reflexivity.
  Qed.
  Lemma condv_of_none done : existsb is_cond done = false -> condv_of done = CondV None None None.
  Proof.
    intro H. assert (Hn : forall k, is_cond k = true -> akw_mem k done = false).
    { intros k Hk. destruct (akw_mem k done) eqn:Hm; [|reflexivity].
      apply akw_mem_In in Hm. assert (existsb is_cond done = true) by (apply existsb_exists; eauto). congruence. }
    unfold condv_of. rewrite !Hn by reflexivity. reflexivity.
  Qed.
  Lemma get_objv_inv done d : Inv done d -> get_objv d = Ok (objv_of done).
  Proof.
    intros [_ H]. unfold get_objv. rewrite H. unfold expected. simpl.
    destruct (existsb is_fam done) eqn:Hf; [reflexivity|]. rewrite objv_of_none by exact Hf. reflexivity.
  Qed.
  Lemma get_condv_inv done d : Inv done d -> get_condv d = Ok (condv_of done).
  Proof.
    intros [_ H]. unfold get_condv. rewrite H. unfold expected. simpl.
    destruct (existsb is_cond done) eqn:Hf; [reflexivity|]. rewrite condv_of_none by exact Hf. reflexivity.
  Qed.
  Lemma expected_own done k : is_own k = true ->
    expected done (kw_key k) = if akw_mem k done then own_result k else None.
  Proof.
    intro Hk. unfold expected.
    pose proof (proj2 (str_eqb_neq _ _) (own_not_properties k Hk)) as ->.
    pose proof (proj2 (str_eqb_neq _ _) (own_not_if k Hk)) as ->.
    destruct (find (fun k0 => str_eqb (kw_key k) (kw_key k0)) (filter is_own done)) as [k'|] eqn:Hf.
    - apply find_some in Hf as [Hin Heq]. apply str_eqb_eq, kw_key_inj in Heq. subst k'.
      apply filter_In in Hin as [Hin _]. apply akw_mem_In in Hin. rewrite Hin. reflexivity.
    - destruct (akw_mem k done) eqn:Hm; [|reflexivity]. exfalso.
      apply akw_mem_In in Hm.
      assert (Hin : In k (filter is_own done)) by (apply filter_In; auto).
      pose proof (find_none _ _ Hf k Hin) as Hx. simpl in Hx. rewrite str_eqb_refl in Hx. discriminate.
  Qed.

  (** the validator table after a successful application *)
  Lemma Inv_fam done d k o' : Inv done d -> is_fam k = true -> o' = objv_of (k :: done) ->
    Inv (k :: done) (put_objv d o').
  Proof.
    intros [Hnd H] Hk ->. split; [apply NoDup_dset; exact Hnd|].
    intro key. unfold put_objv. rewrite dget_dset, H. unfold expected.
    destruct (str_eqb key (u "properties")).
    - simpl. rewrite Hk. reflexivity.
    - assert (Hc : is_cond k = false) by (destruct k; try discriminate; reflexivity).
      assert (Ho : is_own k = false) by (unfold is_own; rewrite Hk; reflexivity).
      simpl. rewrite Ho, Hc. simpl.
      assert (Heq : condv_of (k :: done) = condv_of done) by (destruct k; try discriminate Hk; reflexivity).
      rewrite Heq. reflexivity.
  Qed.
  Lemma Inv_cond done d k o' : Inv done d -> is_cond k = true -> o' = condv_of (k :: done) ->
    Inv (k :: done) (put_condv d o').
  Proof.
    intros [Hnd H] Hk ->. split; [apply NoDup_dset; exact Hnd|].
    intro key. unfold put_condv. rewrite dget_dset, H. unfold expected.
    assert (Hc : is_fam k = false) by (destruct k; try discriminate; reflexivity).
    assert (Ho : is_own k = false) by (unfold is_own; rewrite Hk, andb_false_r; reflexivity).
    assert (Heq : objv_of (k :: done) = objv_of done) by (destruct k; try discriminate Hk; reflexivity).
    destruct (str_eqb_spec key (u "if")) as [->|Hne].
    - simpl. rewrite Hk. reflexivity.
    - simpl. rewrite Hc, Ho, Heq. simpl. reflexivity.
  Qed.
  Lemma Inv_own done d d' k : Inv done d -> is_own k = true ->
    match own_result k with Some o => d' = dset (kw_key k) o d | None => d' = d end ->
    Inv (k :: done) d'.
  Proof.
    intros [Hnd H] Hk Hd'.
    assert (Hc : is_cond k = false) by (destruct k; try discriminate; reflexivity).
    assert (Hf : is_fam k = false) by (destruct k; try discriminate; reflexivity).
    assert (Heq1 : objv_of (k :: done) = objv_of done)
      by (destruct k; try discriminate Hk; reflexivity).
    assert (Heq2 : condv_of (k :: done) = condv_of done)
      by (destruct k; try discriminate Hk; reflexivity).
    assert (Hexp : forall key, expected (k :: done) key =
              if str_eqb key (kw_key k) then own_result k else expected done key).
    { intro key. unfold expected. rewrite Heq1, Heq2. simpl. rewrite Hk, Hc, Hf. simpl.
      destruct (str_eqb_spec key (kw_key k)) as [->|Hne]; [|reflexivity].
      pose proof (proj2 (str_eqb_neq _ _) (own_not_properties k Hk)) as ->.
      pose proof (proj2 (str_eqb_neq _ _) (own_not_if k Hk)) as ->. reflexivity. }
    assert (Hkey : expected done (kw_key k) = own_result k \/ expected done (kw_key k) = None).
    { rewrite expected_own by exact Hk. destruct (akw_mem k done); auto. }
    destruct (own_result k) as [o|]; subst d'.
    - split; [apply NoDup_dset; exact Hnd|]. intro key. rewrite dget_dset, Hexp, H. reflexivity.
    - split; [exact Hnd|]. intro key. rewrite Hexp, H.
      destruct (str_eqb_spec key (kw_key k)) as [->|Hne]; [|reflexivity]. destruct Hkey; assumption.
  Qed.

  Lemma objv_cons done k : is_fam k = true ->
    objv_of (k :: done) =
    let o := objv_of done in
    match k with
    | KwProperties => ObjV (ov_data (objv_of [KwProperties])) (ov_addl o) (ov_pat o) (ov_uneval o) (ov_names o)
    | KwAdditionalProperties =>
        ObjV (ov_data o) (ov_addl (objv_of [KwAdditionalProperties])) (ov_pat o) (ov_uneval o) (ov_names o)
    | KwPatternProperties =>
        ObjV (ov_data o) (ov_addl o) (ov_pat (objv_of [KwPatternProperties])) (ov_uneval o) (ov_names o)
    | KwUnevaluatedProperties =>
        ObjV (ov_data o) (ov_addl o) (ov_pat o) (ov_uneval (objv_of [KwUnevaluatedProperties])) (ov_names o)
    | _ => ObjV (ov_data o) (ov_addl o) (ov_pat o) (ov_uneval o) (ov_names (objv_of [KwPropertyNames]))
    end.
  Proof. destruct k; try discriminate; reflexivity. Qed.

  (** Applying a keyword depends on the table only through the tuple keywords:
      [prefixItems] fails when [items] came first. *)
  Definition late_prefix (k : akw) (d : data) : Prop :=
    k = KwPrefixItems /\ dmem (u "items") d = true /\ dmem (u "prefixItems") d = false.

  Definition apply_spec (done : list akw) (k : akw) (d : data) (r0 r : res data) : Prop :=
    match r0 with
    | Ok _ => exists d', r = Ok d' /\ Inv (k :: done) d'
    | Raise e => r = Raise e
    | OutOfFuel => r = OutOfFuel
    end.

  Lemma own_put done k d o : is_own k = true -> Inv done d -> apply k items [] = Ok (put k o []) ->
    Inv (k :: done) (put k o d).
  Proof.
    intros Hk HI Ha. apply (Inv_own done d _ k HI Hk). unfold own_result. rewrite Ha.
    unfold put. simpl. rewrite str_eqb_refl. reflexivity.
  Qed.
  Lemma own_skip done k d : is_own k = true -> Inv done d -> apply k items [] = Ok [] ->
    Inv (k :: done) d.
  Proof.
    intros Hk HI Ha. apply (Inv_own done d _ k HI Hk). unfold own_result. rewrite Ha. reflexivity.
  Qed.

  Lemma items_slot done d : Inv done d ->
    dget (kw_key KwItems) d = None \/ dget (kw_key KwItems) d = own_result KwItems.
  Proof.
    intros [_ H]. rewrite H, expected_own by reflexivity. destruct (akw_mem KwItems done); auto.
  Qed.
  Lemma prefix_slot done d : Inv done d ->
    dget (kw_key KwPrefixItems) d = None \/ dget (kw_key KwPrefixItems) d = own_result KwPrefixItems.
  Proof.
    intros [_ H]. rewrite H, expected_own by reflexivity. destruct (akw_mem KwPrefixItems done); auto.
  Qed.

  (** the simple own-slot keywords put a value that does not depend on the table *)
  Definition uniform (k : akw) : bool :=
    is_own k && match k with KwItems | KwPrefixItems => false | _ => true end.
  Lemma uniform_apply k d : uniform k = true ->
    (exists o, apply k items [] = Ok (put k o []) /\ apply k items d = Ok (put k o d)) \/
    (apply k items [] = Ok [] /\ apply k items d = Ok d) \/
    (exists e, apply k items [] = Raise e /\ apply k items d = Raise e) \/
    (apply k items [] = OutOfFuel /\ apply k items d = OutOfFuel).
  Proof.
    intro Hu.
    assert (Hb : forall A (m : res A) (f0 f : A -> res data),
      (forall a, m = Ok a -> (exists o, f0 a = Ok (put k o []) /\ f a = Ok (put k o d)) \/
                 (f0 a = Ok [] /\ f a = Ok d) \/
                 (exists e, f0 a = Raise e /\ f a = Raise e) \/ (f0 a = OutOfFuel /\ f a = OutOfFuel)) ->
      (exists o, bind m f0 = Ok (put k o []) /\ bind m f = Ok (put k o d)) \/
      (bind m f0 = Ok [] /\ bind m f = Ok d) \/
      (exists e, bind m f0 = Raise e /\ bind m f = Raise e) \/
      (bind m f0 = OutOfFuel /\ bind m f = OutOfFuel)).
    { intros A m f0 f H. destruct m as [a|e|]; simpl; [apply H; reflexivity| |]; eauto 7. }
    unfold Keywords.apply. apply Hb; intros w Hw. apply Hb; intros n Hn.
    destruct k; try discriminate Hu;
      repeat first
        [ apply Hb; intros ? ?
        | left; eexists; split; reflexivity
        | right; left; split; reflexivity
        | right; right; left; eexists; split; reflexivity
        | match goal with |- context [match nv_val ?w with _ => _ end] => destruct (nv_val w) end
        | match goal with |- context [if ?b then _ else _] => destruct b end
        | match goal with |- context [match fmt E ?f with _ => _ end] => destruct (fmt E f) end ].
  Qed.

  Lemma oview_eq k n w : dget (kw_key k) items = Some n -> view n = Ok w -> oview k = Some (nv_val w).
  Proof. intros H1 H2. unfold oview. rewrite H1, H2. reflexivity. Qed.

  Lemma apply_step done d k : Inv done d -> ~ late_prefix k d ->
    apply_spec done k d (apply k items []) (apply k items d).
  Proof.
    intros HI Hlate.
    destruct (uniform k) eqn:Hu.
    - assert (Hk : is_own k = true) by (unfold uniform in Hu; apply andb_true_iff in Hu; tauto).
      unfold apply_spec. destruct (uniform_apply k d Hu) as [(o & H1 & H2)|[[H1 H2]|[(e & H1 & H2)|[H1 H2]]]];
        rewrite H1.
      + exists (put k o d). split; [exact H2|]. apply own_put; assumption.
      + exists d. split; [exact H2|]. apply own_skip; assumption.
      + exact H2.
      + exact H2.
    - unfold apply_spec, Keywords.apply, opnd, opnd_node.
      destruct (dget (kw_key k) items) as [n|] eqn:Hn; [|reflexivity].
      destruct (view n) as [w|e|] eqn:Hw; simpl bind; try reflexivity.
      pose proof (oview_eq k n w Hn Hw) as Hov.
      assert (Hon : onode k = Some n) by exact Hn.
      pose proof (get_objv_inv _ _ HI) as Hgo. pose proof (get_condv_inv _ _ HI) as Hgc.
      destruct k; try discriminate Hu.
      + (* additionalProperties *)
        destruct (nv_val w) as [|[]| | | |] eqn:Hv; try reflexivity; cbn [bind get_objv dget]; rewrite Hgo;
          cbn [bind]; (eexists; split; [reflexivity|]);
          (apply Inv_fam; [exact HI|reflexivity|]); rewrite objv_cons by reflexivity; cbv zeta.
        * (* [true] leaves what was there: nothing else writes that field *)
          assert (Ha : ov_addl (objv_of [KwAdditionalProperties]) = ov_addl (objv_of done)).
          { unfold objv_of; simpl. rewrite Hov. destruct (akw_mem KwAdditionalProperties done); reflexivity. }
          rewrite Ha. destruct (objv_of done); reflexivity.
        * f_equal. unfold objv_of; simpl. rewrite Hov. reflexivity.
        * f_equal. unfold objv_of; simpl. rewrite Hov, Hon. reflexivity.
      + (* else *)
        unfold as_obj. destruct (nv_val w) eqn:Hv; try reflexivity. cbn [bind get_condv dget]. rewrite Hgc.
        cbn [bind]. eexists; split; [reflexivity|]. apply Inv_cond; [exact HI|reflexivity|].
        unfold condv_of. simpl. rewrite Hon. reflexivity.
      + (* if *)
        unfold as_obj. destruct (nv_val w) eqn:Hv; try reflexivity. cbn [bind get_condv dget]. rewrite Hgc.
        cbn [bind]. eexists; split; [reflexivity|]. apply Inv_cond; [exact HI|reflexivity|].
        unfold condv_of. simpl. rewrite Hon. reflexivity.
      + (* items *)
        assert (Hok : forall o, apply KwItems items [] = Ok (put KwItems o []) ->
                  Inv (KwItems :: done) (put KwItems o d)).
        { intros o Ho. apply own_put; [reflexivity|exact HI|exact Ho]. }
        pose proof (items_slot _ _ HI) as Hslot.
        unfold own_result, Keywords.apply, opnd, opnd_node in Hok, Hslot.
        cbn [kw_key] in *. rewrite Hn in Hok, Hslot. simpl bind in Hok, Hslot. rewrite Hw in Hok, Hslot.
        simpl bind in Hok, Hslot.
        destruct (nv_val w) as [| | | |l|] eqn:Hv; try reflexivity.
        * (* boolean *)
          cbn [bind dget] in *. destruct Hslot as [->|Hs].
          -- simpl bind. eexists; split; [reflexivity|]. apply Hok; reflexivity.
          -- rewrite Hs. unfold put in Hs |- *. simpl. eexists; split; [reflexivity|].
             destruct (is_true w); apply Hok; reflexivity.
        * (* array *)
          destruct (nv_ref w) eqn:Hr; simpl bind in *.
          { destruct Hslot as [->| ->]; reflexivity. }
          destruct (dmem (u "additionalItems") items) eqn:Hai.
          -- destruct (dget (u "additionalItems") items) as [na|] eqn:Hna; simpl bind in *.
             ++ destruct (view na) as [wa|e|] eqn:Hwa; simpl bind in *.
                ** destruct Hslot as [->|Hs]; simpl bind.
                   --- eexists; split; [reflexivity|]. apply Hok; reflexivity.
                   --- rewrite Hs. unfold put; simpl. eexists; split; [reflexivity|].
                       destruct (is_true wa); apply Hok; reflexivity.
                ** destruct Hslot as [->| ->]; reflexivity.
                ** destruct Hslot as [->| ->]; reflexivity.
             ++ destruct Hslot as [->| ->]; reflexivity.
          -- destruct Hslot as [->|Hs]; simpl bind.
             ++ eexists; split; [reflexivity|]. apply Hok; reflexivity.
             ++ rewrite Hs. unfold put; simpl. eexists; split; [reflexivity|]. apply Hok; reflexivity.
        * (* object *)
          cbn [bind dget] in *. unfold is_true in *. rewrite Hv in *. destruct Hslot as [->|Hs].
          -- simpl bind. eexists; split; [reflexivity|]. apply Hok; reflexivity.
          -- rewrite Hs. unfold put in Hs |- *. simpl. eexists; split; [reflexivity|]. apply Hok; reflexivity.
      + (* patternProperties *)
        unfold as_obj. destruct (nv_val w) as [| | | | |m] eqn:Hv; try reflexivity.
        cbn [bind get_objv dget]. rewrite Hgo. cbn [bind]. eexists; split; [reflexivity|].
        apply Inv_fam; [exact HI|reflexivity|]. rewrite objv_cons by reflexivity. cbv zeta.
        f_equal. unfold objv_of; simpl. rewrite Hov. reflexivity.
      + (* prefixItems *)
        assert (Hok : forall o, apply KwPrefixItems items [] = Ok (put KwPrefixItems o []) ->
                  Inv (KwPrefixItems :: done) (put KwPrefixItems o d)).
        { intros o Ho. apply own_put; [reflexivity|exact HI|exact Ho]. }
        pose proof (prefix_slot _ _ HI) as Hslot.
        unfold own_result, Keywords.apply, opnd, opnd_node in Hok, Hslot.
        cbn [kw_key] in *. rewrite Hn in Hok, Hslot. simpl bind in Hok, Hslot. rewrite Hw in Hok, Hslot.
        simpl bind in Hok, Hslot.
        destruct (as_arr w) as [l|e|]; simpl bind in *; try reflexivity.
        destruct (dmem (u "items") d) eqn:Hdm.
        * destruct Hslot as [Hs|Hs].
          -- exfalso. apply Hlate. unfold late_prefix. split; [reflexivity|]. split; [exact Hdm|].
             unfold dmem. cbn [kw_key] in Hs. rewrite Hs. reflexivity.
          -- cbn [kw_key] in Hs. rewrite Hs. unfold put; simpl.
             eexists; split; [reflexivity|]. apply Hok; reflexivity.
        * simpl bind. eexists; split; [reflexivity|]. apply Hok; reflexivity.
      + (* properties *)
        unfold as_obj. destruct (nv_val w) as [| | | | |m] eqn:Hv; try reflexivity.
        cbn [bind get_objv dget]. rewrite Hgo. cbn [bind]. eexists; split; [reflexivity|].
        apply Inv_fam; [exact HI|reflexivity|]. rewrite objv_cons by reflexivity. cbv zeta.
        pose proof (Hwf _ _ _ _ Hn Hw Hv) as Hnd.
        f_equal. unfold objv_of; simpl. rewrite Hov.
        destruct (akw_mem KwProperties done); [apply fold_dset_self|apply fold_dset_nil]; exact Hnd.
      + (* propertyNames *)
        unfold as_obj. destruct (nv_val w) as [| | | | |m] eqn:Hv; try reflexivity.
        cbn [bind get_objv dget]. rewrite Hgo. cbn [bind]. eexists; split; [reflexivity|].
        apply Inv_fam; [exact HI|reflexivity|]. rewrite objv_cons by reflexivity. cbv zeta.
        f_equal. unfold objv_of; simpl. rewrite Hon. reflexivity.
      + (* then *)
        unfold as_obj. destruct (nv_val w) eqn:Hv; try reflexivity. cbn [bind get_condv dget]. rewrite Hgc.
        cbn [bind]. eexists; split; [reflexivity|]. apply Inv_cond; [exact HI|reflexivity|].
        unfold condv_of. simpl. rewrite Hon. reflexivity.
      + (* unevaluatedProperties *)
        destruct (nv_val w) as [|b| | | |m] eqn:Hv; try reflexivity.
        cbn [bind get_objv dget]. rewrite Hgo. cbn [bind]. eexists; split; [reflexivity|].
        apply Inv_fam; [exact HI|reflexivity|]. rewrite objv_cons by reflexivity. cbv zeta.
        f_equal. unfold objv_of; simpl. rewrite Hov. destruct b; [|reflexivity].
        destruct (akw_mem KwUnevaluatedProperties done); reflexivity.
  Qed.

  (** a successful application implies success on the empty table *)
  Lemma late_prefix_apply k d : late_prefix k d -> forall d', apply k items d <> Ok d'.
  Proof.
    intros (-> & H1 & H2) d' Ha. unfold Keywords.apply in Ha.
    apply bind_Ok in Ha as (w & _ & Ha). apply bind_Ok in Ha as (n & _ & Ha).
    apply bind_Ok in Ha as (l & _ & Ha). rewrite H1 in Ha.
    unfold dmem in H2. cbn [kw_key] in Ha. destruct (dget (u "prefixItems") d); [discriminate|].
    simpl in Ha. discriminate.
  Qed.
  Lemma late_prefix_dec k d : late_prefix k d \/ ~ late_prefix k d.
  Proof.
    unfold late_prefix. destruct (akw_eq_dec k KwPrefixItems); [|right; tauto].
    destruct (dmem (u "items") d); [|right; intuition congruence].
    destruct (dmem (u "prefixItems") d); [right; intuition congruence|left; auto].
  Qed.
  Lemma apply_ok done d k d' : Inv done d -> apply k items d = Ok d' ->
    (exists d0, apply k items [] = Ok d0) /\ Inv (k :: done) d'.
  Proof.
    intros HI Ha. destruct (late_prefix_dec k d) as [Hl|Hl].
    - exfalso. exact (late_prefix_apply k d Hl d' Ha).
    - pose proof (apply_step done d k HI Hl) as Hs. unfold apply_spec in Hs.
      destruct (apply k items []) as [d0|e|].
      + destruct Hs as (d'' & H1 & H2). rewrite Ha in H1. injection H1 as <-. eauto.
      + congruence.
      + congruence.
  Qed.

  (** ** The keyword loop *)
  Variable w : nview node.
  Hypothesis Hw : nv_val w = NObj items.
  Definition actives (voc : list akw) : list akw := filter (fun k => dmem (kw_key k) items) voc.

  Lemma run_kws_inv voc done d d' : Inv done d -> run_kws view strx E w voc d = Ok d' ->
    Inv (rev (actives voc) ++ done) d' /\ Forall (fun k => exists d0, apply k items [] = Ok d0) (actives voc).
  Proof.
    revert done d; induction voc as [|k voc IH]; intros done d HI H; simpl in H.
    - injection H as <-. split; [exact HI|constructor].
    - apply bind_Ok in H as (d1 & H1 & H). unfold step_kw, can_apply in H1. rewrite Hw in H1.
      simpl in H1. simpl. destruct (dmem (kw_key k) items) eqn:Hm.
      + destruct (apply_ok done d k d1 HI H1) as [H0 HI1].
        destruct (IH (k :: done) d1 HI1 H) as [HI' Hf]. split.
        * simpl. rewrite <- app_assoc. exact HI'.
        * constructor; assumption.
      + injection H1 as H1; subst d1. exact (IH done d HI H).
  Qed.

  Lemma compile_inv voc n d : view n = Ok w -> compile view strx E voc n = Ok d ->
    Inv (rev (actives voc)) d /\ Forall (fun k => exists d0, apply k items [] = Ok d0) (actives voc).
  Proof.
    intros Hn H. unfold compile in H. rewrite Hn in H. simpl in H. rewrite Hw in H.
    pose proof (run_kws_inv voc [] [] d Inv_nil H) as H1. rewrite app_nil_r in H1. exact H1.
  Qed.

  (** ** When compilation succeeds *)
  Definition applies (k : akw) : Prop := exists d0, apply k items [] = Ok d0.
  Definition items_first (l : list akw) : Prop :=
    exists l1 l2, l = l1 ++ KwPrefixItems :: l2 /\ In KwItems l1 /\ ~ In KwPrefixItems l1.

  Lemma items_result : applies KwItems -> exists o, own_result KwItems = Some o.
  Proof.
    intros [d0 H]. unfold own_result. rewrite H. unfold Keywords.apply in H.
    apply bind_Ok in H as (w0 & _ & H). apply bind_Ok in H as (n & _ & H).
    destruct (nv_val w0) eqn:Hv; try discriminate; cbn [bind dget] in H.
    - injection H as <-. simpl. eauto.
    - destruct (nv_ref w0); [discriminate|].
      destruct (dmem (u "additionalItems") items).
      + apply bind_Ok in H as (wa & _ & H). apply bind_Ok in H as (na & _ & H).
        injection H as <-. simpl. eauto.
      + injection H as <-. simpl. eauto.
    - injection H as <-. simpl. eauto.
  Qed.
  Lemma prefix_result : applies KwPrefixItems -> exists o, own_result KwPrefixItems = Some o.
  Proof.
    intros [d0 H]. unfold own_result. rewrite H. unfold Keywords.apply in H.
    apply bind_Ok in H as (w0 & _ & H). apply bind_Ok in H as (n & _ & H).
    apply bind_Ok in H as (l & _ & H). simpl in H. injection H as <-. simpl. eauto.
  Qed.
  Lemma late_prefix_iff done d k : Inv done d -> Forall applies done ->
    late_prefix k d <-> k = KwPrefixItems /\ In KwItems done /\ ~ In KwPrefixItems done.
  Proof.
    intros [_ H] Hf. unfold late_prefix, dmem.
    pose proof (H (kw_key KwItems)) as Hi. rewrite expected_own in Hi by reflexivity.
    pose proof (H (kw_key KwPrefixItems)) as Hp. rewrite expected_own in Hp by reflexivity.
    cbn [kw_key] in Hi, Hp. rewrite Hi, Hp. rewrite Forall_forall in Hf.
    rewrite <- !akw_mem_In.
    destruct (akw_mem KwItems done) eqn:Hmi.
    - destruct (items_result (Hf _ (proj1 (akw_mem_In _ _) Hmi))) as [o ->].
      destruct (akw_mem KwPrefixItems done) eqn:Hmp.
      + destruct (prefix_result (Hf _ (proj1 (akw_mem_In _ _) Hmp))) as [o' ->].
        intuition congruence.
      + intuition congruence.
    - intuition congruence.
  Qed.
  Lemma items_first_app l1 l2 : items_first l1 -> items_first (l1 ++ l2).
  Proof.
    intros (a & b & -> & H1 & H2). exists a, (b ++ l2). rewrite <- app_assoc. auto.
  Qed.

  Lemma apply_raise done d k e : Inv done d -> apply k items [] = Raise e -> apply k items d = Raise e.
  Proof.
    intros HI He. destruct (late_prefix_dec k d) as [(-> & _)|Hl].
    - unfold Keywords.apply in *. apply bind_Raise in He as [He|(w0 & H0 & He)].
      + rewrite He; reflexivity.
      + rewrite H0. cbn [bind]. apply bind_Raise in He as [He|(n & H1 & He)].
        * rewrite He; reflexivity.
        * rewrite H1. cbn [bind]. apply bind_Raise in He as [He|(l & H2 & He)].
          -- rewrite He; reflexivity.
          -- simpl in He. discriminate.
    - pose proof (apply_step done d k HI Hl) as Hs. rewrite He in Hs. exact Hs.
  Qed.
  Lemma late_prefix_raise d k : late_prefix k d -> applies k ->
    apply k items d = Raise (EKey (u "prefixItems")).
  Proof.
    intros (-> & H1 & H2) [d0 H]. unfold Keywords.apply in *.
    apply bind_Ok in H as (w0 & Hw0 & H). apply bind_Ok in H as (n & Hn & H).
    apply bind_Ok in H as (l & Hl & H). rewrite Hw0. cbn [bind]. rewrite Hn. cbn [bind]. rewrite Hl. cbn [bind].
    rewrite H1. unfold dmem in H2. cbn [kw_key]. destruct (dget (u "prefixItems") d); [discriminate|]. reflexivity.
  Qed.

  Lemma run_kws_ok voc done d : Inv done d -> Forall applies done ->
    Forall applies (actives voc) -> ~ items_first (rev done ++ actives voc) ->
    exists d', run_kws view strx E w voc d = Ok d'.
  Proof.
    revert done d; induction voc as [|k voc IH]; intros done d HI Hfd Hf Hno; simpl.
    - eauto.
    - unfold step_kw, can_apply. rewrite Hw. simpl. simpl in Hf, Hno.
      destruct (dmem (kw_key k) items) eqn:Hm.
      + inversion Hf as [|? ? Hk Hf']; subst.
        assert (Hl : ~ late_prefix k d).
        { rewrite (late_prefix_iff done d k HI Hfd). intros (-> & Hi & Hp). apply Hno.
          exists (rev done), (actives voc). split; [reflexivity|]. rewrite <- !in_rev. auto. }
        pose proof (apply_step done d k HI Hl) as Hs. destruct Hk as [d0 Hk]. rewrite Hk in Hs.
        destruct Hs as (d1 & H1 & HI1). rewrite H1. simpl.
        apply (IH (k :: done) d1 HI1); [constructor; [exists d0; exact Hk|exact Hfd]|exact Hf'|].
        simpl. rewrite <- app_assoc. exact Hno.
      + apply (IH done d HI); assumption.
  Qed.
  Lemma run_kws_no_conflict voc done d d' : Inv done d -> Forall applies done ->
    ~ items_first (rev done) ->
    run_kws view strx E w voc d = Ok d' -> ~ items_first (rev done ++ actives voc).
  Proof.
    revert done d; induction voc as [|k voc IH]; intros done d HI Hfd Hno H; simpl in H.
    - simpl. rewrite app_nil_r. exact Hno.
    - apply bind_Ok in H as (d1 & H1 & H). unfold step_kw, can_apply in H1. rewrite Hw in H1.
      simpl in H1. simpl. destruct (dmem (kw_key k) items) eqn:Hm.
      + destruct (apply_ok done d k d1 HI H1) as [H0 HI1].
        pose proof (IH (k :: done) d1 HI1 (Forall_cons _ H0 Hfd)) as IH'. simpl in IH'.
        rewrite <- app_assoc in IH'. simpl in IH'. apply IH'; [|exact H].
        intros (a & b & Heq & Hi & Hp).
        destruct b as [|y b] using rev_ind.
        * apply app_inj_tail in Heq as [Heq ->].
          apply (late_prefix_apply KwPrefixItems d) with d1; [|exact H1].
          apply (late_prefix_iff done d _ HI Hfd). split; [reflexivity|]. subst a.
          rewrite <- !in_rev in *. auto.
        * clear IHb. rewrite app_comm_cons, app_assoc in Heq. apply app_inj_tail in Heq as [Heq ->].
          apply Hno. exists a, b. auto.
      + injection H1 as H1; subst d1. exact (IH done d HI Hfd Hno H).
  Qed.

  (** a schema object compiles iff every active keyword has a usable operand
      and [items] was not processed before a first [prefixItems] *)
  Theorem compile_ok_iff voc n : view n = Ok w ->
    (exists d, compile view strx E voc n = Ok d) <->
    Forall applies (actives voc) /\ ~ items_first (actives voc).
  Proof.
    intro Hn. unfold compile. rewrite Hn. simpl. rewrite Hw. split.
    - intros [d Hd]. split.
      + exact (proj2 (run_kws_inv voc [] [] d Inv_nil Hd)).
      + apply (run_kws_no_conflict voc [] [] d Inv_nil (Forall_nil _)); [|exact Hd].
        intros ([|? ?] & b & Heq & _); discriminate.
    - intros [Hf Hno]. apply (run_kws_ok voc [] [] Inv_nil (Forall_nil _) Hf Hno).
  Qed.

  (** the first unusable operand decides the exception *)
  Theorem compile_raise voc n l1 k l2 e : view n = Ok w ->
    actives voc = l1 ++ k :: l2 -> Forall applies l1 -> ~ items_first l1 ->
    apply k items [] = Raise e -> compile view strx E voc n = Raise e.
  Proof.
    intros Hn Hact Hf Hno He. unfold compile. rewrite Hn. simpl. rewrite Hw.
    assert (Hgen : forall voc done d, Inv done d -> Forall applies done -> forall l1,
      actives voc = l1 ++ k :: l2 -> Forall applies l1 -> ~ items_first (rev done ++ l1) ->
      run_kws view strx E w voc d = Raise e).
    { clear - Hwf Hw He. induction voc as [|x voc IH]; intros done d HI Hfd l1 Hact Hf Hno; simpl in Hact.
      - destruct l1; discriminate.
      - simpl. unfold step_kw, can_apply. rewrite Hw. simpl.
        destruct (dmem (kw_key x) items) eqn:Hm.
        + destruct l1 as [|y l1]; simpl in Hact; injection Hact as -> Hact.
          * rewrite (apply_raise done d k e HI He). reflexivity.
          * inversion Hf as [|? ? Hy Hf']; subst.
            assert (Hl : ~ late_prefix y d).
            { rewrite (late_prefix_iff done d y HI Hfd). intros (-> & Hi & Hp). apply Hno.
              exists (rev done), l1. split; [reflexivity|]. rewrite <- !in_rev. auto. }
            pose proof (apply_step done d y HI Hl) as Hs. destruct Hy as [d0 Hy]. rewrite Hy in Hs.
            destruct Hs as (d1 & H1 & HI1). rewrite H1. simpl.
            apply (IH (y :: done) d1 HI1 (Forall_cons _ (ex_intro _ d0 Hy) Hfd) l1 Hact Hf').
            simpl. rewrite <- app_assoc. exact Hno.
        + exact (IH done d HI Hfd l1 Hact Hf Hno). }
    exact (Hgen voc [] [] Inv_nil (Forall_nil _) l1 Hact Hf Hno).
  Qed.

  Theorem compile_conflict voc n l1 l2 : view n = Ok w ->
    actives voc = l1 ++ KwPrefixItems :: l2 -> Forall applies l1 -> applies KwPrefixItems ->
    In KwItems l1 -> ~ In KwPrefixItems l1 ->
    compile view strx E voc n = Raise (EKey (u "prefixItems")).
  Proof.
    intros Hn Hact Hf Hap Hi Hp. unfold compile. rewrite Hn. simpl. rewrite Hw.
    assert (Hgen : forall voc done d, Inv done d -> Forall applies done -> ~ In KwPrefixItems done -> forall l1,
      actives voc = l1 ++ KwPrefixItems :: l2 -> Forall applies l1 -> ~ In KwPrefixItems l1 ->
      In KwItems (done ++ l1) ->
      run_kws view strx E w voc d = Raise (EKey (u "prefixItems"))).
    { clear - Hwf Hw Hap. induction voc as [|x voc IH]; intros done d HI Hfd Hpd l1 Hact Hf Hp Hi; simpl in Hact.
      - destruct l1; discriminate.
      - simpl. unfold step_kw, can_apply. rewrite Hw. simpl.
        destruct (dmem (kw_key x) items) eqn:Hm.
        + destruct l1 as [|y l1]; simpl in Hact; injection Hact as -> Hact.
          * rewrite app_nil_r in Hi. rewrite late_prefix_raise; [reflexivity| |exact Hap].
            apply (late_prefix_iff done d _ HI Hfd). auto.
          * inversion Hf as [|? ? Hy Hf']; subst. destruct Hy as [d0 Hy].
            assert (Hl : ~ late_prefix y d).
            { intros (-> & _). apply Hp. left; reflexivity. }
            pose proof (apply_step done d y HI Hl) as Hs. rewrite Hy in Hs.
            destruct Hs as (d1 & H1 & HI1). rewrite H1. simpl.
            apply (IH (y :: done) d1 HI1 (Forall_cons _ (ex_intro _ d0 Hy) Hfd)) with l1; auto.
            -- intros [->|Hin]; [apply Hp; left; reflexivity|auto].
            -- intro; apply Hp; right; assumption.
            -- simpl. apply in_app_or in Hi as [Hi|[->|Hi]]; [right; apply in_or_app; auto|left; reflexivity|].
               right; apply in_or_app; auto.
        + exact (IH done d HI Hfd Hpd l1 Hact Hf Hp Hi). }
    exact (Hgen voc [] [] Inv_nil (Forall_nil _) (fun H => H) l1 Hact Hf Hp Hi).
  Qed.
End Graph.
