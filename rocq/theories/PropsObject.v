(** Properties C15, C16, C26: object members and whole schemas. *)
From Verif Require Import PyBase PyBaseFacts PyVal Errors Validators Keywords Spec LeafFacts Mono RunFacts KeywordFacts Master Claims ScalarFacts PropsScalar CompositeFacts.
From Coq Require Import QArith ZifyBool.
Local Open Scope Z_scope.

(** what [additionalProperties] says: nothing, [false], or a schema *)
Inductive rule (node : Type) := Free | Forbidden | By (s : node).
Arguments Free {node}. Arguments Forbidden {node}. Arguments By {node} s.

Section Props.
  Context {node : Type} (view : node -> res (nview node)) (strx : node -> pystr) (E : env).
  Variable voc : list akw.
  Hypothesis Hwf : wf_view view.
  Notation Accepts := (Accepts view strx E voc).
  Notation Rejects := (Rejects view strx E voc).
  Notation Outcome := (Outcome view strx E voc).
  Notation RejectsWith := (RejectsWith view strx E voc).
  Notation obj_at := (obj_at view).
  Notation val := (validate view strx E voc).

  (** keyword [k] is recognised and occurs with operand [m] *)
  Definition uses (items : list (pystr * node)) (k : akw) (m : node) : Prop :=
    In k voc /\ dget (kw_key k) items = Some m.
  (** keyword [k] does not occur, or is not recognised *)
  Definition unused (items : list (pystr * node)) (k : akw) : Prop :=
    ~ (In k voc /\ In (kw_key k) (dkeys items)).
  (** a boolean, possibly reached by a reference *)
  Definition bool_at (m : node) (b : bool) : Prop := exists w, view m = Ok w /\ nv_val w = NBool b.

  (** the table of sub-schemas under [k]; empty when [k] is not used *)
  Definition table_at (items : list (pystr * node)) (k : akw) (tbl : list (pystr * node)) : Prop :=
    (unused items k /\ tbl = []) \/ (exists m, uses items k m /\ obj_at m tbl).
  Definition rule_at (items : list (pystr * node)) (r : rule node) : Prop :=
    match r with
    | Free => unused items KwAdditionalProperties \/
              exists m, uses items KwAdditionalProperties m /\ bool_at m true
    | Forbidden => exists m, uses items KwAdditionalProperties m /\ bool_at m false
    | By m => uses items KwAdditionalProperties m /\ exists it, obj_at m it
    end.
  (** [unevaluatedProperties: false] *)
  Definition closed_at (items : list (pystr * node)) (b : bool) : Prop :=
    (b = false /\ unused items KwUnevaluatedProperties) \/
    (exists m, uses items KwUnevaluatedProperties m /\ bool_at m (negb b)).
  Definition names_rule (items : list (pystr * node)) (s : option node) : Prop :=
    match s with
    | None => unused items KwPropertyNames
    | Some m => uses items KwPropertyNames m /\ exists it, obj_at m it
    end.

  (** the object keywords of a schema, and nothing else *)
  Definition object_schema (n : node) (props pats : list (pystr * node)) (r : rule node) (closed : bool)
      (names : option node) : Prop :=
    exists items, obj_at n items /\
      only voc items
        [KwProperties; KwPatternProperties; KwAdditionalProperties; KwUnevaluatedProperties; KwPropertyNames] /\
      table_at items KwProperties props /\ table_at items KwPatternProperties pats /\
      rule_at items r /\ closed_at items closed /\ names_rule items names.

  (** some pattern of the table matches the name *)
  Definition matches (pats : list (pystr * node)) (key : pystr) : Prop :=
    exists p s, In (p, s) pats /\ re_search E p key = true.

  (** how one member is judged: exactly one of these families applies *)
  Inductive judged (props pats : list (pystr * node)) (r : rule node) (closed : bool) (c : ctx)
      (key : pystr) (y : pv) : Prop :=
  | by_property s : dget key props = Some s -> Accepts s y (c ++ [key]) -> judged props pats r closed c key y
  | by_patterns : ~ In key (dkeys props) -> matches pats key ->
      (forall p s, In (p, s) pats -> re_search E p key = true -> Accepts s y (c ++ [key])) ->
      judged props pats r closed c key y
  | by_additional s : ~ In key (dkeys props) -> ~ matches pats key -> r = By s ->
      Accepts s y (c ++ [key]) -> judged props pats r closed c key y
  | unrestricted : ~ In key (dkeys props) -> ~ matches pats key -> r = Free -> closed = false ->
      judged props pats r closed c key y.

  (** how a member fails *)
  Inductive faulty (props pats : list (pystr * node)) (r : rule node) (closed : bool) (c : ctx)
      (key : pystr) (y : pv) : exn -> Prop :=
  | bad_property s e : dget key props = Some s -> Outcome s y (c ++ [key]) (Raise e) ->
      faulty props pats r closed c key y e
  | bad_pattern before p s after e : ~ In key (dkeys props) -> pats = before ++ (p, s) :: after ->
      (forall p' s', In (p', s') before -> re_search E p' key = true -> Accepts s' y (c ++ [key])) ->
      re_search E p key = true -> Outcome s y (c ++ [key]) (Raise e) -> faulty props pats r closed c key y e
  | bad_additional s e : ~ In key (dkeys props) -> ~ matches pats key -> r = By s ->
      Outcome s y (c ++ [key]) (Raise e) -> faulty props pats r closed c key y e
  | bad_forbidden : ~ In key (dkeys props) -> ~ matches pats key -> r = Forbidden ->
      faulty props pats r closed c key y (EValid (VErr KFail (dotted (c ++ [key]))))
  | bad_unevaluated : ~ In key (dkeys props) -> ~ matches pats key -> r = Free -> closed = true ->
      faulty props pats r closed c key y (EValid (VErr KFail (dotted (c ++ [key])))).

  Definition addl_of (r : rule node) : option (sub node) :=
    match r with Free => None | Forbidden => Some SFail | By s => Some (SLazy s) end.
  Definition objv_for props pats r closed names : objv node :=
    ObjV props (addl_of r) (Some pats) closed names.

  Lemma used_mem items k m : uses items k m -> akw_mem k (rev (actives items voc)) = true.
  Proof.
    intros [H1 H2]. apply done_mem. split; [exact H1|]. apply dget_In, (in_map fst) in H2. exact H2.
  Qed.
  Lemma unused_mem items k : unused items k -> akw_mem k (rev (actives items voc)) = false.
  Proof.
    intro H. destruct (akw_mem k (rev (actives items voc))) eqn:Hm; [|reflexivity].
    exfalso. apply H. apply done_mem in Hm. exact Hm.
  Qed.
  Lemma run_kws_none w items : nv_val w = NObj items -> forall l d,
    (forall k, In k l -> dmem (kw_key k) items = false) -> run_kws view strx E w l d = Ok d.
  Proof.
    intros Hx l d. induction l as [|k l IH]; intro H; [reflexivity|]. cbn [run_kws]. unfold step_kw, can_apply.
    rewrite Hx. cbn [bind]. rewrite (H k (or_introl eq_refl)). cbn [bind]. apply IH. intros; apply H; right; assumption.
  Qed.

  (** the schema is compiled to one object validator *)
  Lemma object_run n props pats r closed names f v c : object_schema n props pats r closed names ->
    val (S f) n v c = object_validate E (val f) (objv_for props pats r closed names) v c.
  Proof.
    intros (items & (w & Hw & Hx) & Ho & Hp & Hpp & Hr & Hc & Hn). cbn [validate].
    assert (Hmt : forall o, ov_data o = props -> ov_addl o = addl_of r -> ov_uneval o = closed -> ov_names o = names ->
              (ov_pat o = Some pats \/ (ov_pat o = None /\ pats = [])) ->
              object_validate E (val f) o v c = object_validate E (val f) (objv_for props pats r closed names) v c).
    { intros o H1 H2 H3 H4 H5. unfold object_validate. destruct v; try reflexivity.
      apply for_each_ext. intros [k x] _. unfold member_validate, objv_for. cbn [ov_data ov_addl ov_uneval ov_names ov_pat].
      rewrite H1, H2, H3, H4. destruct H5 as [->|[-> ->]]; reflexivity. }
    assert (Hfield : forall a b c0 d0 e0, objv_of view items (rev (actives items voc)) = ObjV a b c0 d0 e0 ->
              a = props /\ b = addl_of r /\ d0 = closed /\ e0 = names /\ (c0 = Some pats \/ (c0 = None /\ pats = []))).
    { intros a b c0 d0 e0 H. unfold objv_of in H. injection H as <- <- <- <- <-.
      split; [|split; [|split; [|split]]].
      - destruct Hp as [[Hu ->]|(m & Hm & w' & Hw' & Hx')].
        + rewrite (unused_mem _ _ Hu). reflexivity.
        + rewrite (used_mem _ _ _ Hm). rewrite (oview_eq view items KwProperties m w' (proj2 Hm) Hw'), Hx'. reflexivity.
      - destruct r as [| |s]; cbn [rule_at addl_of] in *.
        + destruct Hr as [Hu|(m & Hm & w' & Hw' & Hx')].
          * rewrite (unused_mem _ _ Hu). reflexivity.
          * rewrite (used_mem _ _ _ Hm). rewrite (oview_eq view items KwAdditionalProperties m w' (proj2 Hm) Hw'), Hx'. reflexivity.
        + destruct Hr as (m & Hm & w' & Hw' & Hx').
          rewrite (used_mem _ _ _ Hm). rewrite (oview_eq view items KwAdditionalProperties m w' (proj2 Hm) Hw'), Hx'. reflexivity.
        + destruct Hr as (Hm & it & w' & Hw' & Hx').
          rewrite (used_mem _ _ _ Hm). rewrite (oview_eq view items KwAdditionalProperties s w' (proj2 Hm) Hw'), Hx'.
          unfold onode. rewrite (proj2 Hm). reflexivity.
      - destruct Hc as [[-> Hu]|(m & Hm & w' & Hw' & Hx')].
        + rewrite (unused_mem _ _ Hu). reflexivity.
        + rewrite (used_mem _ _ _ Hm). rewrite (oview_eq view items KwUnevaluatedProperties m w' (proj2 Hm) Hw'), Hx'.
          destruct closed; reflexivity.
      - destruct names as [m|]; cbn [names_rule] in Hn.
        + destruct Hn as (Hm & _). rewrite (used_mem _ _ _ Hm). unfold onode. exact (proj2 Hm).
        + rewrite (unused_mem _ _ Hn). reflexivity.
      - destruct Hpp as [[Hu ->]|(m & Hm & w' & Hw' & Hx')].
        + rewrite (unused_mem _ _ Hu). right. auto.
        + rewrite (used_mem _ _ _ Hm). rewrite (oview_eq view items KwPatternProperties m w' (proj2 Hm) Hw'), Hx'. left. reflexivity. }
    destruct (existsb (fun k => dmem (kw_key k) items) voc) eqn:Hex.
    - apply existsb_exists in Hex as (k0 & Hk0 & Hk0'). pose proof (proj1 (dmem_In _ _) Hk0') as Hin0.
      rewrite (only_compile view strx E voc Hwf n w items _ Hw Hx Ho).
      + cbn [bind]. rewrite for_each_one. cbn [snd run_vobj].
        destruct (objv_of view items (rev (actives items voc))) as [a b c0 d0 e0] eqn:Hov.
        destruct (Hfield a b c0 d0 e0 eq_refl) as (H1 & H2 & H3 & H4 & H5). apply Hmt; assumption.
      + intros k [<-|[<-|[<-|[<-|[<-|[]]]]]]; reflexivity.
      + exists k0. auto.
      + apply Forall_forall. intros k Hk. apply filter_In in Hk as [H1 H2].
        pose proof (proj1 (dmem_In _ _) H2) as H2'. unfold applies, apply, opnd, opnd_node.
        destruct (Ho k H1 H2') as [<-|[<-|[<-|[<-|[<-|[]]]]]].
        * destruct Hp as [[Hu _]|(m & Hm & w' & Hw' & Hx')]; [exfalso; apply Hu; auto|].
          rewrite (proj2 Hm). cbn [bind]. rewrite Hw'. cbn [bind]. unfold as_obj. rewrite Hx'. cbn [bind get_objv dget]. eauto.
        * destruct Hpp as [[Hu _]|(m & Hm & w' & Hw' & Hx')]; [exfalso; apply Hu; auto|].
          rewrite (proj2 Hm). cbn [bind]. rewrite Hw'. cbn [bind]. unfold as_obj. rewrite Hx'. cbn [bind get_objv dget]. eauto.
        * destruct r as [| |s]; cbn [rule_at] in Hr.
          -- destruct Hr as [Hu|(m & Hm & w' & Hw' & Hx')]; [exfalso; apply Hu; auto|].
             rewrite (proj2 Hm). cbn [bind]. rewrite Hw'. cbn [bind]. rewrite Hx'. cbn [bind get_objv dget]. eauto.
          -- destruct Hr as (m & Hm & w' & Hw' & Hx').
             rewrite (proj2 Hm). cbn [bind]. rewrite Hw'. cbn [bind]. rewrite Hx'. cbn [bind get_objv dget]. eauto.
          -- destruct Hr as (Hm & it & w' & Hw' & Hx').
             rewrite (proj2 Hm). cbn [bind]. rewrite Hw'. cbn [bind]. rewrite Hx'. cbn [bind get_objv dget]. eauto.
        * destruct Hc as [[_ Hu]|(m & Hm & w' & Hw' & Hx')]; [exfalso; apply Hu; auto|].
          rewrite (proj2 Hm). cbn [bind]. rewrite Hw'. cbn [bind]. rewrite Hx'. cbn [bind get_objv dget]. eauto.
        * destruct names as [m|]; cbn [names_rule] in Hn; [|exfalso; apply Hn; auto].
          destruct Hn as (Hm & it & w' & Hw' & Hx').
          rewrite (proj2 Hm). cbn [bind]. rewrite Hw'. cbn [bind]. unfold as_obj. rewrite Hx'. cbn [bind get_objv dget]. eauto.
    - assert (Hnone : forall k, In k voc -> dmem (kw_key k) items = false).
      { intros k Hk. destruct (dmem (kw_key k) items) eqn:Hd; [|reflexivity].
        assert (existsb (fun k => dmem (kw_key k) items) voc = true); [|congruence]. apply existsb_exists. eauto. }
      unfold compile. rewrite Hw. cbn [bind]. rewrite Hx. rewrite (run_kws_none w items Hx voc [] Hnone). cbn [bind for_each].
      assert (Hact : actives items voc = []).
      { unfold actives. clear -Hnone. induction voc as [|k l IH]; [reflexivity|]. simpl.
        rewrite (Hnone k (or_introl eq_refl)). apply IH. intros; apply Hnone; right; assumption. }
      destruct (objv_of view items (rev (actives items voc))) as [a b c0 d0 e0] eqn:Hov.
      destruct (Hfield a b c0 d0 e0 eq_refl) as (H1 & H2 & H3 & H4 & H5).
      rewrite Hact in Hov. unfold objv_of in Hov. simpl in Hov. injection Hov as <- <- <- <- <-.
      rewrite <- (Hmt (ObjV [] None None false None) H1 H2 H3 H4 H5).
      unfold object_validate. destruct v; try reflexivity. symmetry. apply for_each_Ok. apply Forall_forall.
      intros [k x] _. reflexivity.
  Qed.

  (** every pattern is a valid regular expression *)
  Definition good_patterns (pats : list (pystr * node)) : Prop :=
    forall p s, In (p, s) pats -> re_ok E p = true.

  Lemma member_ok_judged o props pats r closed names c key y :
    o = objv_for props pats r closed names -> good_patterns pats ->
    member_ok E Accepts o c key y <->
    (forall s, names = Some s -> Accepts s (VStr key) (c ++ [key])) /\ judged props pats r closed c key y.
  Proof.
    intros -> Hg. unfold member_ok. cbn [objv_for ov_names ov_data ov_pat].
    assert (Hnd : dget key props = None -> ~ In key (dkeys props)).
    { intros H Hin. apply dmem_In, dmem_dget in Hin as [x Hx]. congruence. }
    assert (Hdn : ~ In key (dkeys props) -> dget key props = None).
    { intro H. destruct (dget key props) eqn:Hd; [|reflexivity]. exfalso. apply H. apply dget_In, (in_map fst) in Hd. exact Hd. }
    assert (Hmatch : matched E (objv_for props pats r closed names) key <-> matches pats key).
    { unfold matched, matches. cbn [objv_for ov_pat]. split.
      - intros (pats' & p & s & Heq & H). injection Heq as <-. eauto.
      - intros (p & s & H). exists pats, p, s. auto. }
    assert (Hdec : matches pats key \/ ~ matches pats key).
    { destruct (existsb (fun ps => re_search E (fst ps) key) pats) eqn:Hex.
      - left. apply existsb_exists in Hex as ([p s] & H1 & H2). exists p, s. auto.
      - right. intros (p & s & H1 & H2). assert (existsb (fun ps => re_search E (fst ps) key) pats = true); [|congruence].
        apply existsb_exists. exists (p, s). auto. }
    apply and_iff_compat_l. destruct (dget key props) as [s|] eqn:Hd.
    - split; [intro H; apply (by_property _ _ _ _ _ _ _ s Hd H)|].
      intro H. destruct H as [s' Hs' Ha|Hno|s' Hno|Hno].
      + rewrite Hd in Hs'. injection Hs' as <-. exact Ha.
      + apply Hdn in Hno. congruence.
      + apply Hdn in Hno. congruence.
      + apply Hdn in Hno. congruence.
    - specialize (Hnd eq_refl). split.
      + intros [Hpat Hrest]. specialize (Hpat pats eq_refl). rewrite Forall_forall in Hpat.
        destruct Hdec as [Hm|Hm].
        * apply by_patterns; [exact Hnd|exact Hm|]. intros p s Hin Hs. exact (proj2 (Hpat (p, s) Hin) Hs).
        * destruct Hrest as [Hx|Hx]; [exfalso; apply Hm, Hmatch, Hx|].
          unfold rest_ok in Hx. cbn [objv_for ov_addl ov_uneval] in Hx. destruct r as [| |s]; cbn [addl_of] in Hx.
          -- apply unrestricted; auto.
          -- contradiction.
          -- apply (by_additional _ _ _ _ _ _ _ s); auto.
      + intro H. split.
        * intros pats' Heq. injection Heq as <-. apply Forall_forall. intros [p s] Hin. split; [exact (Hg p s Hin)|].
          intro Hs. cbn [fst snd] in *. destruct H as [s' Hs' Ha|_ _ Hall|s' _ Hm|_ Hm].
          -- congruence.
          -- exact (Hall p s Hin Hs).
          -- exfalso. apply Hm. exists p, s. auto.
          -- exfalso. apply Hm. exists p, s. auto.
        * destruct H as [s' Hs' Ha|_ Hm _|s' _ _ -> Ha|_ _ -> Hcl].
          -- congruence.
          -- left. apply Hmatch, Hm.
          -- right. exact Ha.
          -- right. exact Hcl.
  Qed.
  Lemma object_accepts n props pats r closed names d c :
    object_schema n props pats r closed names -> good_patterns pats ->
    (Accepts n (VDict d) c <->
     forall key y, In (key, y) d ->
       (forall s, names = Some s -> Accepts s (VStr key) (c ++ [key])) /\ judged props pats r closed c key y).
  Proof.
    intros Ho Hg.
    assert (Hiff : Accepts n (VDict d) c <->
              vholds view E Accepts Rejects (VObject (objv_for props pats r closed names)) (VDict d) c).
    { rewrite <- (run_vobj_iff view E (fun f => val f)
        ltac:(intros; apply le_validate; assumption)). split.
      - intros [[|f] Hf]; [discriminate|]. rewrite (object_run n _ _ _ _ _ f _ c Ho) in Hf. exists f. exact Hf.
      - intros [f Hf]. exists (S f). rewrite (object_run n _ _ _ _ _ f _ c Ho). exact Hf. }
    rewrite Hiff. cbn [vholds]. rewrite Forall_forall. split.
    - intros H key y Hin. specialize (H (key, y) Hin). cbn [fst snd] in H.
      apply (member_ok_judged _ _ _ _ _ _ _ _ _ eq_refl Hg). exact H.
    - intros H [key y] Hin. cbn [fst snd]. apply (member_ok_judged _ _ _ _ _ _ _ _ _ eq_refl Hg). exact (H key y Hin).
  Qed.

  (** ** C15 *)
  Theorem C15_members n props pats r closed d c :
    object_schema n props pats r closed None -> good_patterns pats ->
    (Accepts n (VDict d) c <-> forall key y, In (key, y) d -> judged props pats r closed c key y).
  Proof.
    intros Ho Hg. rewrite (object_accepts n _ _ _ _ _ d c Ho Hg). split.
    - intros H key y Hin. exact (proj2 (H key y Hin)).
    - intros H key y Hin. split; [discriminate|exact (H key y Hin)].
  Qed.
  Theorem C15_not_object n props pats r closed names v c :
    object_schema n props pats r closed names -> (forall d, v <> VDict d) -> Accepts n v c.
  Proof.
    intros Ho Hv. exists 1%nat. rewrite (object_run n _ _ _ _ _ 0 _ c Ho). unfold object_validate.
    destruct v; try reflexivity. exfalso. exact (Hv d eq_refl).
  Qed.
  Lemma pattern_loop_ev pats key y c : good_patterns pats ->
    (forall p s, In (p, s) pats -> re_search E p key = true -> Accepts s y (c ++ [key])) ->
    forall b, ev (fun f => pattern_loop E (val f) pats key y c b =
                 Ok (b || existsb (fun ps => re_search E (fst ps) key) pats)%bool).
  Proof.
    intros Hg H. induction pats as [|[p s] pats IH]; intro b.
    - apply ev_all. intros f. simpl. rewrite orb_false_r. reflexivity.
    - assert (Hg' : good_patterns pats) by (intros p' s' H'; apply (Hg p' s'); right; exact H').
      specialize (IH Hg' (fun p' s' H1 H2 => H p' s' (or_intror H1) H2)).
      pose proof (Hg p s (or_introl eq_refl)) as Hp. destruct (re_search E p key) eqn:Hs.
      + eapply ev_impl; [|exact (ev_and _ _ (accepts_ev view strx E voc s y _ (H p s (or_introl eq_refl) Hs)) (IH true))].
        intros f [H1 H2]. cbn [pattern_loop]. rewrite Hp, Hs. unfold ctx_add. rewrite H1. cbn [bind]. rewrite H2.
        simpl. rewrite Hs. rewrite orb_true_r. reflexivity.
      + eapply ev_impl; [|exact (IH b)]. intros f H1. cbn beta in H1. cbn [pattern_loop]. rewrite Hp, Hs, H1.
        simpl. rewrite Hs. reflexivity.
  Qed.
  Lemma no_match_false pats key : ~ matches pats key -> existsb (fun ps => re_search E (fst ps) key) pats = false.
  Proof.
    intro H. destruct (existsb _ pats) eqn:Hex; [|reflexivity]. exfalso. apply H.
    apply existsb_exists in Hex as ([p s] & H1 & H2). exists p, s. auto.
  Qed.
  Lemma pattern_loop_raise before p s after key y c e : good_patterns (before ++ (p, s) :: after) ->
    (forall p' s', In (p', s') before -> re_search E p' key = true -> Accepts s' y (c ++ [key])) ->
    re_search E p key = true -> Outcome s y (c ++ [key]) (Raise e) ->
    forall b, ev (fun f => pattern_loop E (val f) (before ++ (p, s) :: after) key y c b = Raise e).
  Proof.
    intros Hg Hb Hp Ho. induction before as [|[p' s'] before IH]; intro b.
    - eapply ev_impl; [|exact (outcome_ev view strx E voc _ _ _ _ Ho)]. intros f H1. cbn beta in H1.
      cbn [app pattern_loop]. rewrite (Hg p s (or_introl eq_refl)), Hp. unfold ctx_add. rewrite H1. reflexivity.
    - assert (Hg' : good_patterns (before ++ (p, s) :: after)) by (intros p1 s1 H'; apply (Hg p1 s1); right; exact H').
      specialize (IH Hg' (fun p1 s1 H1 H2 => Hb p1 s1 (or_intror H1) H2)).
      pose proof (Hg p' s' (or_introl eq_refl)) as Hp'. destruct (re_search E p' key) eqn:Hs.
      + eapply ev_impl; [|exact (ev_and _ _ (accepts_ev view strx E voc s' y _ (Hb p' s' (or_introl eq_refl) Hs)) (IH true))].
        intros f [H1 H2]. cbn [app pattern_loop]. rewrite Hp', Hs. unfold ctx_add. rewrite H1. exact H2.
      + eapply ev_impl; [|exact (IH b)]. intros f H1. cbn [app pattern_loop]. rewrite Hp', Hs. exact H1.
  Qed.
  (** the first faulty member decides the exception *)
  Theorem C15_first_fault n props pats r closed before key y after c e :
    object_schema n props pats r closed None -> good_patterns pats ->
    (forall k x, In (k, x) before -> judged props pats r closed c k x) ->
    faulty props pats r closed c key y e ->
    Outcome n (VDict (before ++ (key, y) :: after)) c (Raise e).
  Proof.
    intros Ho Hg Hb Hf.
    assert (Hdn : forall key, ~ In key (dkeys props) -> dget key props = None).
    { intros k H. destruct (dget k props) eqn:Hd; [|reflexivity]. exfalso. apply H. apply dget_In, (in_map fst) in Hd. exact Hd. }
    assert (Hrun : ev (fun f => object_validate E (val f) (objv_for props pats r closed None)
                                (VDict (before ++ (key, y) :: after)) c = Raise e)).
    { cbn [object_validate].
      apply (for_each_ev (fun f => member_validate E (val f) (objv_for props pats r closed None) c)).
      - intros [k x] Hin. specialize (Hb k x Hin). unfold member_validate, objv_for.
        cbn [ov_names ov_data ov_pat ov_addl ov_uneval bind].
        destruct Hb as [s Hs Ha|Hno Hm Hall|s Hno Hm -> Ha|Hno Hm -> ->].
        + rewrite Hs. apply accepts_ev. exact Ha.
        + rewrite (Hdn _ Hno).
          eapply ev_impl; [|exact (pattern_loop_ev pats k x c Hg Hall false)]. intros f H1. cbn beta in H1. rewrite H1.
          cbn [bind orb]. assert (Hex : existsb (fun ps => re_search E (fst ps) k) pats = true).
          { destruct Hm as (p & s & H2 & H3). apply existsb_exists. exists (p, s). auto. }
          rewrite Hex. reflexivity.
        + rewrite (Hdn _ Hno).
          eapply ev_impl; [|exact (ev_and _ _ (pattern_loop_ev pats k x c Hg
            (fun p s' H1 H2 => False_ind _ (Hm (ex_intro _ p (ex_intro _ s' (conj H1 H2))))) false) (accepts_ev view strx E voc _ _ _ Ha))].
          intros f [H1 H2]. rewrite H1. cbn [bind orb]. rewrite (no_match_false _ _ Hm). exact H2.
        + rewrite (Hdn _ Hno).
          eapply ev_impl; [|exact (pattern_loop_ev pats k x c Hg
            (fun p s' H1 H2 => False_ind _ (Hm (ex_intro _ p (ex_intro _ s' (conj H1 H2))))) false)].
          intros f H1. cbn beta in H1. rewrite H1. cbn [bind orb]. rewrite (no_match_false _ _ Hm). reflexivity.
      - unfold member_validate, objv_for. cbn [ov_names ov_data ov_pat ov_addl ov_uneval bind].
        assert (Hkf : forall cc, @raise_verr unit KFail (ctx_path cc) = Raise (EValid (VErr KFail (dotted cc)))).
        { intro cc. unfold raise_verr. simpl. rewrite dotted_path. reflexivity. }
        destruct Hf as [s e Hs Ha|bef p s aft e Hno -> Hbf Hp Ha|s e Hno Hm -> Ha|Hno Hm ->|Hno Hm -> ->].
        + rewrite Hs. apply outcome_ev. exact Ha.
        + rewrite (Hdn _ Hno). eapply ev_impl; [|exact (pattern_loop_raise bef p s aft key y c e Hg Hbf Hp Ha false)].
          intros f H1. cbn beta in H1. rewrite H1. reflexivity.
        + rewrite (Hdn _ Hno).
          eapply ev_impl; [|exact (ev_and _ _ (pattern_loop_ev pats key y c Hg
            (fun p s' H1 H2 => False_ind _ (Hm (ex_intro _ p (ex_intro _ s' (conj H1 H2))))) false) (outcome_ev view strx E voc _ _ _ _ Ha))].
          intros f [H1 H2]. rewrite H1. cbn [bind orb]. rewrite (no_match_false _ _ Hm). exact H2.
        + rewrite (Hdn _ Hno).
          eapply ev_impl; [|exact (pattern_loop_ev pats key y c Hg
            (fun p s' H1 H2 => False_ind _ (Hm (ex_intro _ p (ex_intro _ s' (conj H1 H2))))) false)].
          intros f H1. cbn beta in H1. rewrite H1. cbn [bind orb]. rewrite (no_match_false _ _ Hm). cbn [addl_of run_sub]. apply Hkf.
        + rewrite (Hdn _ Hno).
          eapply ev_impl; [|exact (pattern_loop_ev pats key y c Hg
            (fun p s' H1 H2 => False_ind _ (Hm (ex_intro _ p (ex_intro _ s' (conj H1 H2))))) false)].
          intros f H1. cbn beta in H1. rewrite H1. cbn [bind orb]. rewrite (no_match_false _ _ Hm). cbn [addl_of]. apply Hkf. }
    split; [discriminate|]. destruct Hrun as [f0 Hf0]. exists (S f0).
    rewrite (object_run n _ _ _ _ _ f0 _ c Ho). apply Hf0. lia.
  Qed.

  (** ** C16 *)
  Theorem C16_property_names n props pats r closed s d c :
    object_schema n props pats r closed (Some s) -> good_patterns pats ->
    (Accepts n (VDict d) c <->
     (forall key, In key (dkeys d) -> Accepts s (VStr key) (c ++ [key])) /\
     (forall key y, In (key, y) d -> judged props pats r closed c key y)).
  Proof.
    intros Ho Hg. rewrite (object_accepts n _ _ _ _ _ d c Ho Hg). split.
    - intro H. split.
      + intros key Hin. unfold dkeys in Hin. apply in_map_iff in Hin as ([k y] & <- & Hin). apply (H k y Hin). reflexivity.
      + intros key y Hin. exact (proj2 (H key y Hin)).
    - intros [H1 H2] key y Hin. split; [|exact (H2 key y Hin)]. intros s' Heq. injection Heq as <-.
      apply H1. apply (in_map fst) in Hin. exact Hin.
  Qed.

  (** ** C26 *)
  (** every recognised keyword that occurs gets what it demands ([Spec.demands]) *)
  Theorem C26_conjunction n items v c : obj_at n items -> compiles view strx E voc n ->
    (Accepts n v c <->
     forall k m x, In k voc -> dget (kw_key k) items = Some m -> view m = Ok x ->
       demands view strx E voc Accepts Rejects items k m (nv_val x) v c).
  Proof.
    intros (w & Hw & Hx) Hc. rewrite (accepts_object view strx E voc Hwf n w items v c Hw Hx). tauto.
  Qed.

  (** the members a keyword looks at *)
  Definition reads (k : akw) : list pystr :=
    kw_key k ::
    match k with
    | KwContains => [u "minContains"; u "maxContains"]
    | KwItems => [u "additionalItems"]
    | KwMaximum => [u "exclusiveMaximum"]
    | KwMinimum => [u "exclusiveMinimum"]
    | KwExclusiveMaximum => [u "maximum"]
    | KwExclusiveMinimum => [u "minimum"]
    | _ => []
    end.
  Lemma apply_agree k items items' d : (forall key, In key (reads k) -> dget key items = dget key items') ->
    apply view strx E k items d = apply view strx E k items' d.
  Proof.
    intro H. unfold apply, opnd, opnd_node, exclusive_flag, opt_bound, opnd, dmem.
    rewrite (H (kw_key k) (or_introl eq_refl)).
    destruct k; try reflexivity.
    - rewrite (H (u "minContains")), (H (u "maxContains")) by (simpl; tauto). reflexivity.
    - rewrite (H (u "maximum")) by (simpl; tauto). reflexivity.
    - rewrite (H (u "minimum")) by (simpl; tauto). reflexivity.
    - rewrite (H (u "additionalItems")) by (simpl; tauto). reflexivity.
    - rewrite (H (u "exclusiveMaximum")) by (simpl; tauto). reflexivity.
    - rewrite (H (u "exclusiveMinimum")) by (simpl; tauto). reflexivity.
  Qed.
  (** two schemas that agree on the members read by the vocabulary behave alike *)
  Theorem C26_unrecognised n n' items items' f v c : obj_at n items -> obj_at n' items' ->
    (forall k key, In k voc -> In key (reads k) -> dget key items = dget key items') ->
    validate view strx E voc f n v c = validate view strx E voc f n' v c.
  Proof.
    intros (w & Hw & Hx) (w' & Hw' & Hx') Hag. destruct f as [|f]; [reflexivity|]. cbn [validate].
    assert (Hc : compile view strx E voc n = compile view strx E voc n'); [|rewrite Hc; reflexivity].
    unfold compile. rewrite Hw, Hw'. cbn [bind]. rewrite Hx, Hx'.
    generalize (@nil (pystr * vobj node node)) as d.
    assert (Hgen : forall l d, (forall k key, In k l -> In key (reads k) -> dget key items = dget key items') ->
              run_kws view strx E w l d = run_kws view strx E w' l d).
    { induction l as [|k l IH]; intros d Hl; [reflexivity|]. cbn [run_kws]. unfold step_kw, can_apply. rewrite Hx, Hx'.
      cbn [bind]. unfold dmem. rewrite (Hl k (kw_key k) (or_introl eq_refl) (or_introl eq_refl)).
      destruct (dget (kw_key k) items').
      - rewrite (apply_agree k items items') by (intros key Hk; apply (Hl k key (or_introl eq_refl) Hk)).
        destruct (apply view strx E k items' d); cbn [bind]; try reflexivity. apply IH. intros; eapply Hl; [right; eassumption|assumption].
      - cbn [bind]. apply IH. intros; eapply Hl; [right; eassumption|assumption]. }
    intro d. apply Hgen, Hag.
  Qed.
End Props.
