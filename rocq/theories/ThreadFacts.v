(** Facts about [Threads.v]: the table of a lazy validator only grows towards the
    one a single thread would build, whoever writes it. *)
From Verif Require Import PyBase PyBaseFacts PyVal Errors Validators Keywords KeywordFacts Master Threads.
From Coq Require Import Lia.
Local Open Scope nat_scope.
Local Notation length := List.length (only parsing).

(** ** Dictionaries *)
Section Dict.
  Context {A : Type}.
  Implicit Types d e : list (pystr * A).
  Lemma dset_id k v d : dget k d = Some v -> dset k v d = d.
  Proof.
    induction d as [|[k' v'] d IH]; simpl; [discriminate|]. destruct (str_eqb_spec k k') as [->|Hn].
    - intros [= ->]. reflexivity.
    - intro H. rewrite IH by exact H. reflexivity.
  Qed.
  Lemma dset_new k v d : dget k d = None -> dset k v d = d ++ [(k, v)].
  Proof.
    induction d as [|[k' v'] d IH]; simpl; [reflexivity|]. destruct (str_eqb_spec k k') as [->|Hn]; [discriminate|].
    intro H. rewrite IH by exact H. reflexivity.
  Qed.
  Lemma dget_app k d e : dget k (d ++ e) = match dget k d with Some v => Some v | None => dget k e end.
  Proof. induction d as [|[k' v'] d IH]; simpl; [reflexivity|]. destruct (str_eqb k k'); [reflexivity|exact IH]. Qed.
  Definition ext d e : Prop := exists x, e = d ++ x.
  Lemma ext_refl d : ext d d.
  Proof. exists []. rewrite app_nil_r. reflexivity. Qed.
  Lemma ext_trans d1 d2 d3 : ext d1 d2 -> ext d2 d3 -> ext d1 d3.
  Proof. intros [x ->] [y ->]. exists (x ++ y). rewrite app_assoc. reflexivity. Qed.
  Lemma ext_get d e k v : ext d e -> dget k d = Some v -> dget k e = Some v.
  Proof. intros [x ->] H. rewrite dget_app, H. reflexivity. Qed.
  Lemma ext_same d e : ext d e -> length d = length e -> d = e.
  Proof. intros [x ->] H. rewrite app_length in H. destruct x; [rewrite app_nil_r; reflexivity|simpl in H; lia]. Qed.
  Lemma ext_length d e : ext d e -> length d <= length e.
  Proof. intros [x ->]. rewrite app_length. lia. Qed.
  (** setting once more what was set, or sets on its way there *)
  Lemma dset_after k v d e : ext (dset k v d) e -> dset k v e = e.
  Proof. intro H. apply dset_id. apply (ext_get _ _ _ _ H). rewrite dget_dset, str_eqb_refl. reflexivity. Qed.
  Lemma dset_between k v d e : ext d e -> ext e (dset k v d) -> dset k v e = dset k v d.
  Proof.
    intros [x ->] Hx. destruct (dget k d) as [v'|] eqn:Hg.
    - assert (Hl : length (d ++ x) <= length d).
      { pose proof (ext_length _ _ Hx) as Hl. assert (He : length (dset k v d) = length d); [|rewrite He in Hl; exact Hl].
        transitivity (length (dkeys (dset k v d))); [symmetry; apply map_length|].
        rewrite dkeys_dset. unfold dmem. rewrite Hg. apply map_length. }
      rewrite app_length in Hl. destruct x; [rewrite app_nil_r; reflexivity|simpl in Hl; lia].
    - pose proof (dset_new k v d Hg) as Hn. rewrite Hn in Hx |- *. destruct Hx as [y Hy]. rewrite <- app_assoc in Hy.
      apply app_inv_head in Hy. destruct x as [|p x].
      + rewrite app_nil_r. exact Hn.
      + simpl in Hy. injection Hy as <- Hy. destruct x; [|discriminate].
        apply dset_id. rewrite dget_app, Hg. simpl. rewrite str_eqb_refl. reflexivity.
  Qed.
End Dict.

Section Stages.
  Context {node : Type} (view : node -> res (nview node)) (strx : node -> pystr) (E : env).
  Variable voc : list akw.
  Notation data := (list (pystr * vobj node node)).
  Hypothesis Hwf : wf_view view.
  Hypothesis Hvoc : incl voc validator_vocabulary.

  (** a validator without sub-validators *)
  Definition leafy (o : vobj node node) : Prop :=
    match o with VObject _ => False | _ => True end /\
    forall (r r' : node -> pv -> ctx -> res unit) lf lf' v c, run_vobj view E r lf o v c = run_vobj view E r' lf' o v c.

  Definition props_only (m : list (pystr * node)) : vobj node node := VObject (ObjV m None None false None).
  (** what a keyword puts into the table *)
  Definition puts (kw : akw) (items : list (pystr * node)) : res (option (vobj node node)) :=
    match kw with
    | KwProperties => m <- (w <- opnd view items (kw_key kw) ;; as_obj w) ;; Ok (Some (props_only m))
    | _ => match apply view strx E kw items [] with
           | Ok [] => Ok None
           | Ok ((_, o) :: _) => Ok (Some o)
           | Raise e => Raise e
           | OutOfFuel => OutOfFuel
           end
    end.
  Definition plainkw (kw : akw) : Prop := In kw validator_vocabulary /\ kw <> KwProperties /\ kw <> KwPatternProperties.

  Lemma leaf_apply kw items d : plainkw kw ->
    (exists e, apply view strx E kw items [] = Raise e /\ apply view strx E kw items d = Raise e) \/
    (apply view strx E kw items [] = OutOfFuel /\ apply view strx E kw items d = OutOfFuel) \/
    (apply view strx E kw items [] = Ok [] /\ apply view strx E kw items d = Ok d) \/
    (exists o, apply view strx E kw items [] = Ok [(kw_key kw, o)] /\ apply view strx E kw items d = Ok (dset (kw_key kw) o d) /\ leafy o).
  Proof.
    intros (Hin & Hp & Hq). unfold apply. destruct (opnd view items (kw_key kw)) as [w|e|]; simpl; [|eauto|eauto].
    destruct (opnd_node items (kw_key kw)) as [n|e|]; simpl; [|eauto|eauto].
    assert (L : forall o, leafy o -> exists o0, Ok (put kw o []) = Ok [(kw_key kw, o0)] /\ Ok (put kw o d) = Ok (dset (kw_key kw) o0 d) /\ leafy o0).
    { intros o Ho. exists o. split; [reflexivity|]. split; [reflexivity|exact Ho]. }
    unfold as_num, as_str, exclusive_flag.
    destruct Hin as [<-|[<-|[<-|[<-|[<-|[<-|[<-|[<-|[<-|[<-|[<-|[<-|[<-|[]]]]]]]]]]]]]]; try congruence;
      repeat first
        [ match goal with |- context [match nv_val ?w with _ => _ end] => destruct (nv_val w) end; simpl; try (left; eexists; split; reflexivity)
        | match goal with |- context [if nv_ref ?w then _ else _] => destruct (nv_ref w) end; simpl; try (left; eexists; split; reflexivity)
        | match goal with |- context [if dmem ?x ?y then _ else _] => destruct (dmem x y) end; simpl; try (left; eexists; split; reflexivity)
        | match goal with |- context [map_res ?x ?y] => destruct (map_res x y) end; simpl; try (left; eexists; split; reflexivity); try (right; left; split; reflexivity)
        | match goal with |- context [opnd ?a ?b ?c] => destruct (opnd a b c) end; simpl; try (left; eexists; split; reflexivity); try (right; left; split; reflexivity)
        | match goal with |- context [match fmt E ?f with _ => _ end] => destruct (fmt E f) end; simpl; try (left; eexists; split; reflexivity)
        | match goal with |- context [if re_ok E ?f then _ else _] => destruct (re_ok E f) end; simpl; try (left; eexists; split; reflexivity)
        | match goal with |- context [if forallb ?f ?l then _ else _] => destruct (forallb f l) end; simpl; try (left; eexists; split; reflexivity)
        | match goal with |- context [if ?b && true then _ else _] => destruct b end; simpl; try (left; eexists; split; reflexivity)
        | solve [right; right; left; split; reflexivity]
        | solve [right; right; right; apply L; split; [exact I|intros ? ? ? ? ? ?; reflexivity]] ].
  Qed.

  (** the entries of a table are what its keywords put *)
  Definition tabled (items : list (pystr * node)) (d : data) : Prop :=
    forall k o, dget k d = Some o -> exists kw, k = kw_key kw /\ puts kw items = Ok (Some o).

  Lemma fold_dset_new (m acc : list (pystr * node)) : NoDup (dkeys (acc ++ m)) ->
    fold_left (fun acc kn => dset (fst kn) (snd kn) acc) m acc = acc ++ m.
  Proof.
    revert acc; induction m as [|[k n] m IH]; intros acc Hnd; simpl; [rewrite app_nil_r; reflexivity|].
    rewrite dset_new; [rewrite IH; [rewrite <- app_assoc; reflexivity|rewrite <- app_assoc; exact Hnd]|].
    apply dget_None. intro Hin. unfold dkeys in *. rewrite map_app in Hnd. apply NoDup_remove_2 in Hnd. apply Hnd.
    apply in_or_app. left; exact Hin.
  Qed.
  Lemma fold_dset_same (m acc : list (pystr * node)) : (forall k n, In (k, n) m -> dget k acc = Some n) ->
    fold_left (fun acc kn => dset (fst kn) (snd kn) acc) m acc = acc.
  Proof.
    revert acc; induction m as [|[k n] m IH]; intros acc H; simpl; [reflexivity|].
    rewrite dset_id by (apply H; left; reflexivity). apply IH. intros; apply H; right; assumption.
  Qed.

  (** the names of the members of an operand are distinct *)
  Lemma opnd_obj_nodup items k m : (w <- opnd view items k ;; as_obj w) = Ok m -> NoDup (dkeys m).
  Proof.
    intro H. apply bind_Ok in H as (w & Hw & H). unfold opnd in Hw. destruct (dget k items) as [n|]; [|discriminate].
    unfold as_obj in H. destruct (nv_val w) eqn:Hv; try discriminate. injection H as <-. exact (Hwf _ _ _ Hw Hv).
  Qed.

  Lemma apply_puts kw items d : In kw validator_vocabulary -> kw <> KwPatternProperties -> tabled items d ->
    apply view strx E kw items d =
    (e <- puts kw items ;; Ok (match e with Some o => dset (kw_key kw) o d | None => d end)).
  Proof.
    intros Hin Hnp Ht. destruct (akw_eq_dec kw KwProperties) as [->|Hne].
    - unfold puts. remember (w <- opnd view items (kw_key KwProperties) ;; as_obj w) as r eqn:Hr. symmetry in Hr.
      unfold apply. unfold opnd, opnd_node in *. destruct (dget (kw_key KwProperties) items) as [n|] eqn:Hg; simpl in *; [|rewrite <- Hr; reflexivity].
      destruct (view n) as [w|e|] eqn:Hv; simpl in *; try (rewrite <- Hr; reflexivity).
      rewrite Hr. destruct r as [m|e|]; simpl; [|reflexivity|reflexivity].
      assert (Hnd : NoDup (dkeys m)).
      { unfold as_obj in Hr. destruct (nv_val w) eqn:Hw; try discriminate. injection Hr as <-. exact (Hwf _ _ _ Hv Hw). }
      unfold get_objv. change (u "properties") with (kw_key KwProperties). destruct (dget (kw_key KwProperties) d) as [o|] eqn:Hd.
      + destruct (Ht _ _ Hd) as (kw & Hk & Hp). apply kw_key_inj in Hk. subst kw.
        unfold puts, opnd in Hp. change (kw_key KwProperties) with (u "properties") in Hp. rewrite Hg in Hp. simpl in Hp. rewrite Hv in Hp. simpl in Hp. rewrite Hr in Hp. simpl in Hp.
        injection Hp as <-. simpl. unfold put_objv. simpl.
        rewrite fold_dset_same by (intros k c Hc; apply In_dget; assumption). reflexivity.
      + simpl. unfold put_objv. simpl. rewrite fold_dset_new by exact Hnd. reflexivity.
    - destruct (leaf_apply kw items d (conj Hin (conj Hne Hnp))) as [(e & H0 & H1)|[[H0 H1]|[[H0 H1]|(o & H0 & H1 & _)]]];
        rewrite H1; unfold puts; rewrite H0; destruct kw; try reflexivity; congruence.
  Qed.
  Lemma puts_leafy kw items o : In kw validator_vocabulary -> kw <> KwPatternProperties -> kw <> KwProperties ->
    puts kw items = Ok (Some o) -> leafy o /\ apply view strx E kw items [] = Ok [(kw_key kw, o)].
  Proof.
    intros Hin Hnp Hne H. destruct (leaf_apply kw items [] (conj Hin (conj Hne Hnp))) as [(e & H0 & H1)|[[H0 H1]|[[H0 H1]|(o' & H0 & H1 & Hl)]]];
      unfold puts in H; rewrite H0 in H; destruct kw; try discriminate H; try congruence; injection H as <-; auto.
  Qed.
  Lemma tabled_set kw items d o : tabled items d -> puts kw items = Ok (Some o) -> tabled items (dset (kw_key kw) o d).
  Proof.
    intros Ht Hp k o' H. rewrite dget_dset in H. destruct (str_eqb_spec k (kw_key kw)) as [->|Hn].
    - injection H as <-. eauto.
    - apply Ht; exact H.
  Qed.
  Lemma tabled_ext kw items d o : tabled items d -> puts kw items = Ok (Some o) -> ext d (dset (kw_key kw) o d).
  Proof.
    intros Ht Hp. destruct (dget (kw_key kw) d) as [o'|] eqn:Hg.
    - destruct (Ht _ _ Hg) as (kw' & Hk & Hp'). apply kw_key_inj in Hk. subst kw'. rewrite Hp in Hp'. injection Hp' as <-.
      rewrite dset_id by exact Hg. apply ext_refl.
    - rewrite dset_new by exact Hg. eexists; reflexivity.
  Qed.

  (** ** Stages of one validator *)
  Section Node.
    Variable w : nview node.
    Hypothesis Hnp : forall items, nv_val w = NObj items -> dmem (kw_key KwPatternProperties) items = false.
    Definition fits (d : data) : Prop :=
      match nv_val w with NObj items => tabled items d | _ => d = [] end.
    Lemma fits_nil : fits [].
    Proof. unfold fits. destruct (nv_val w); try reflexivity. intros k o; discriminate. Qed.
    Lemma step_ext kw d d' : In kw validator_vocabulary -> fits d -> step_kw view strx E w kw d = Ok d' -> fits d' /\ ext d d'.
    Proof.
      intros Hin Hf H. unfold step_kw in H. apply bind_Ok in H as (b & Hb & H).
      destruct b; [|injection H as <-; split; [exact Hf|apply ext_refl]].
      unfold fits in *. destruct (nv_val w) as [| | | | |items] eqn:Hv; try discriminate.
      assert (Hk : kw <> KwPatternProperties).
      { intros ->. unfold can_apply in Hb. rewrite Hv in Hb. rewrite (Hnp _ eq_refl) in Hb. discriminate. }
      rewrite (apply_puts _ _ _ Hin Hk Hf) in H. apply bind_Ok in H as (e & He & H). injection H as <-.
      destruct e as [o|]; [|split; [exact Hf|apply ext_refl]].
      split; [eapply tabled_set|eapply tabled_ext]; eassumption.
    Qed.
    Lemma run_ext l d d' : incl l validator_vocabulary -> fits d -> run_kws view strx E w l d = Ok d' -> fits d' /\ ext d d'.
    Proof.
      revert d; induction l as [|kw l IH]; intros d Hl Hf H; simpl in H.
      - injection H as <-. split; [exact Hf|apply ext_refl].
      - apply bind_Ok in H as (d1 & H1 & H). destruct (step_ext _ _ _ (Hl kw (or_introl eq_refl)) Hf H1) as [Hf1 He1].
        destruct (IH d1 (fun x Hx => Hl x (or_intror Hx)) Hf1 H) as [Hf2 He2]. split; [exact Hf2|eapply ext_trans; eassumption].
    Qed.
    Lemma run_app l1 l2 d : run_kws view strx E w (l1 ++ l2) d = (d1 <- run_kws view strx E w l1 d ;; run_kws view strx E w l2 d1).
    Proof.
      revert d; induction l1 as [|kw l1 IH]; intro d; simpl; [reflexivity|].
      destruct (step_kw view strx E w kw d); simpl; [apply IH|reflexivity|reflexivity].
    Qed.
  End Node.

  (** the table after the first [j] keywords *)
  Definition stage (n : node) (j : nat) : res data :=
    match j with
    | O => Ok []
    | S _ =>
        w <- view n ;;
        match nv_val w with
        | NBool b => Ok (if b then [] else [(u "_", VFail)])
        | _ => run_kws view strx E w (firstn j voc) []
        end
    end.
  Definition whole : nat := S (length voc).
  Lemma stage_whole n : stage n whole = compile view strx E voc n.
  Proof.
    unfold stage, whole, compile. destruct (view n) as [w|e|]; cbn [bind]; [|reflexivity|reflexivity].
    destruct (nv_val w); try reflexivity; rewrite firstn_all2 by lia; reflexivity.
  Qed.
  Definition unpatterned (n : node) : Prop :=
    forall w items, view n = Ok w -> nv_val w = NObj items -> dmem (kw_key KwPatternProperties) items = false.
  Lemma firstn_voc j : incl (firstn j voc) validator_vocabulary.
  Proof. intros x Hx. apply Hvoc. rewrite <- (firstn_skipn j voc). apply in_or_app; left; exact Hx. Qed.
  Lemma stage_ext n i j d d' : unpatterned n -> i <= j -> stage n i = Ok d -> stage n j = Ok d' -> ext d d'.
  Proof.
    intros Hu Hij Hi Hj. destruct i as [|i]; [injection Hi as <-; exists d'; reflexivity|].
    destruct j as [|j]; [lia|]. unfold stage in *.
    apply bind_Ok in Hi as (w & Hw & Hi). rewrite Hw in Hj. cbn [bind] in Hj.
    assert (Hnp : forall items, nv_val w = NObj items -> dmem (kw_key KwPatternProperties) items = false) by (intros; eapply Hu; eassumption).
    assert (Hgen : run_kws view strx E w (firstn (S i) voc) [] = Ok d -> run_kws view strx E w (firstn (S j) voc) [] = Ok d' -> ext d d').
    { intros Ha Hb.
      assert (Hs : firstn (S j) voc = firstn (S i) voc ++ firstn (j - i) (skipn (S i) voc)).
      { rewrite <- (firstn_skipn (S i) (firstn (S j) voc)). rewrite firstn_firstn, Nat.min_l by lia. apply f_equal.
        rewrite (firstn_skipn_comm (j - i) (S i) voc). replace (S i + (j - i)) with (S j) by lia. reflexivity. }
      rewrite Hs, run_app, Ha in Hb. cbn [bind] in Hb.
      destruct (run_ext w Hnp _ _ _ (firstn_voc (S i)) (fits_nil w Hnp) Ha) as [Hf _].
      refine (proj2 (run_ext w Hnp _ _ _ _ Hf Hb)).
      intros x Hx. apply Hvoc. rewrite <- (firstn_skipn (S i) voc). apply in_or_app; right.
      rewrite <- (firstn_skipn (j - i) (skipn (S i) voc)). apply in_or_app; left; exact Hx. }
    destruct (nv_val w); try (apply Hgen; assumption). rewrite Hi in Hj. injection Hj as <-. apply ext_refl.
  Qed.
End Stages.
