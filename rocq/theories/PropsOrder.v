(** Properties C27 and C31: neither the order of the vocabulary nor the order
    of the members of the instance turns an accepted value into a rejected one. *)
From Verif Require Import PyBase PyBaseFacts PyVal Errors Validators Keywords Spec LeafFacts Mono RunFacts KeywordFacts Master Claims RejectFacts OrderFacts.
From Coq Require Import QArith ZifyBool Permutation.
Local Open Scope Z_scope.

(** keywords that only ever require sub-schemas to accept *)
Definition only_requires (k : akw) : Prop :=
  match k with KwAnyOf | KwOneOf | KwNot | KwIf | KwContains => False | _ => True end.

Section Props.
  Context {node : Type} (view : node -> res (nview node)) (strx : node -> pystr) (E : env).
  Hypothesis Hwf : wf_view view.
  (** the format checks do not depend on member order (the ones of the package
      raise [TypeError] on objects and arrays) *)
  Definition order_blind : Prop :=
    forall f test v v', fmt E f = Some test -> same_value v v' -> test v = test v'.

  Lemma fuel_demands voc f n w items v c : view n = Ok w -> nv_val w = NObj items ->
    validate view strx E voc (S f) n v c = Ok tt ->
    compiles view strx E voc n /\
    forall k m x, In k voc -> dget (kw_key k) items = Some m -> view m = Ok x ->
      demands view strx E voc (fun n v c => validate view strx E voc f n v c = Ok tt)
        (fun n v c => exists e, validate view strx E voc f n v c = Raise (EValid e)) items k m (nv_val x) v c.
  Proof.
    intros Hn Hw H. cbn [validate] in H. apply bind_Ok in H as (d & Hd & H).
    assert (Hwfi : wf_operands view items) by (intros k n' w' m _ H1 H2; exact (Hwf n' w' m H1 H2)).
    destruct (compile_inv view strx E items Hwfi w Hw voc n d Hn Hd) as [HI Happ].
    split; [exists d; exact Hd|].
    apply (table_demands view strx E voc _ _ items Happ d v c HI). apply for_each_Ok in H.
    eapply Forall_impl; [|exact H]. intros [k o] Ho. exact (run_vobj_sound view E _ _ _ _ _ Ho).
  Qed.

  Lemma items_first_dec l : items_first l \/ ~ items_first l.
  Proof.
    unfold items_first. induction l as [|k l IH] using rev_ind.
    - right. intros ([|? ?] & l2 & H & _); discriminate.
    - destruct IH as [(l1 & l2 & -> & H)|IH].
      + left. exists l1, (l2 ++ [k]). rewrite <- app_assoc. split; [reflexivity|exact H].
      + assert (Hd : (k = KwPrefixItems /\ In KwItems l /\ ~ In KwPrefixItems l) \/
                     ~ (k = KwPrefixItems /\ In KwItems l /\ ~ In KwPrefixItems l)).
        { destruct (akw_eq_dec k KwPrefixItems); [|tauto].
          destruct (in_dec akw_eq_dec KwItems l); [|tauto]. destruct (in_dec akw_eq_dec KwPrefixItems l); tauto. }
        destruct Hd as [(-> & H)|Hd].
        * left. exists l, []. auto.
        * right. intros (l1 & l2 & Heq & H). destruct l2 as [|x l2 _] using rev_ind.
          -- apply app_inj_tail in Heq as [-> ->]. auto.
          -- rewrite app_comm_cons, app_assoc in Heq. apply app_inj_tail in Heq as [-> ->]. apply IH. eauto.
  Qed.
  Lemma flat_run w l : (forall items, nv_val w <> NObj items) -> forall d d',
    run_kws view strx E w l d = Ok d' <-> d' = d /\ forall k, In k l -> can_apply view w (kw_key k) = Ok false.
  Proof.
    intros Hw d. revert d. induction l as [|k l IH]; intros d d'; cbn [run_kws].
    - split; [intro H; injection H as <-; split; [reflexivity|intros ? []]|intros [-> _]; reflexivity].
    - unfold step_kw. destruct (can_apply view w (kw_key k)) as [[|]|e|] eqn:Hc; cbn [bind].
      + split.
        * destruct (nv_val w); cbn [bind]; try discriminate. exfalso. exact (Hw _ eq_refl).
        * intros [_ H]. specialize (H k (or_introl eq_refl)). congruence.
      + rewrite IH. split; intros [-> H]; split; try reflexivity.
        * intros k' [<-|Hk']; auto.
        * intros k' Hk'. apply H. right. exact Hk'.
      + split; [discriminate|]. intros [_ H]. specialize (H k (or_introl eq_refl)). congruence.
      + split; [discriminate|]. intros [_ H]. specialize (H k (or_introl eq_refl)). congruence.
  Qed.

  Lemma actives_applies voc voc' items : (forall k, In k voc <-> In k voc') ->
    Forall (applies view strx E items) (actives items voc) -> Forall (applies view strx E items) (actives items voc').
  Proof.
    intros Hvoc H. rewrite Forall_forall in *. intros k Hk. apply H. unfold actives in *.
    apply filter_In in Hk as [H1 H2]. apply filter_In. split; [apply Hvoc, H1|exact H2].
  Qed.
  (** a schema that compiles in one order compiles in the other, or meets the
      [items] / [prefixItems] conflict *)
  Lemma compile_order voc voc' n : (forall k, In k voc <-> In k voc') ->
    compiles view strx E voc n ->
    compiles view strx E voc' n \/
    (In KwItems voc /\ In KwPrefixItems voc /\ compile view strx E voc' n = Raise (EKey (u "prefixItems"))).
  Proof.
    intros Hvoc [d Hd]. destruct (view n) as [w|e0|] eqn:Hn.
    2,3: unfold compile in Hd; rewrite Hn in Hd; discriminate.
    destruct (nv_val w) as [|b| | | |items] eqn:Hw;
      try (left; unfold compiles, compile in *; rewrite Hn in *; cbn [bind] in *; rewrite Hw in *;
           exists []; apply (flat_run w); [intros; congruence|];
           apply flat_run in Hd as [_ Hd]; [|intros; congruence];
           split; [reflexivity|]; intros k Hk; apply Hd, Hvoc, Hk; fail).
    - left. unfold compiles, compile. rewrite Hn. cbn [bind]. rewrite Hw. eauto.
    - assert (Hwfi : wf_operands view items) by (intros k n' w' m _ H1 H2; exact (Hwf n' w' m H1 H2)).
      pose proof (proj1 (compile_ok_iff view strx E items Hwfi w Hw voc n Hn) (ex_intro _ d Hd)) as [Hap Hno].
      pose proof (actives_applies voc voc' items Hvoc Hap) as Hap'.
      destruct (items_first_dec (actives items voc')) as [Hf|Hf].
      + right. destruct Hf as (l1 & l2 & Heq & Hi & Hp).
        assert (Hin : forall k, In k l1 \/ k = KwPrefixItems -> In k voc).
        { intros k Hk. apply Hvoc. assert (In k (actives items voc')) as H.
          { rewrite Heq. apply in_or_app. destruct Hk as [Hk| ->]; [left; exact Hk|right; left; reflexivity]. }
          apply filter_In in H. tauto. }
        split; [apply Hin; auto|]. split; [apply Hin; auto|].
        rewrite Heq in Hap'. apply Forall_app in Hap' as [Ha Hb]. inversion Hb; subst.
        apply (compile_conflict view strx E items Hwfi w Hw voc' n l1 l2 Hn Heq); assumption.
      + left. apply (compile_ok_iff view strx E items Hwfi w Hw voc' n Hn). auto.
  Qed.

  Section Two.
    Variable voc voc' : list akw.
    Hypothesis Hvoc : forall k, In k voc <-> In k voc'.
    Hypothesis Hfmt : order_blind.
    Notation val := (validate view strx E voc).
    Notation val' := (validate view strx E voc').

    (** acceptance in one order contradicts rejection in the other *)
    Lemma flip_step f g n v v' c e : same_value v v' ->
      (forall n v v' c e, same_value v v' -> val f n v c = Ok tt -> val' g n v' c = Raise (EValid e) -> False) ->
      (forall n v v' c e, same_value v v' -> val f n v c = Raise (EValid e) -> val' g n v' c = Ok tt -> False) ->
      val (S f) n v c = Ok tt -> val' (S g) n v' c = Raise (EValid e) -> False.
    Proof.
      intros Hs IH1 IH2 H1 H2.
      assert (Hc : compiles view strx E voc n) by (cbn [validate] in H1; apply bind_Ok in H1 as (d & Hd & _); exists d; exact Hd).
      destruct (compile_order voc voc' n Hvoc Hc) as [[d' Hd']|(_ & _ & Hx)].
      2: { cbn [validate] in H2. rewrite Hx in H2. discriminate. }
      destruct (view n) as [w|e0|] eqn:Hn.
      2,3: destruct Hc as [d Hd]; unfold compile in Hd; rewrite Hn in Hd; discriminate.
      destruct (nv_val w) as [|b| | | |items] eqn:Hw;
        try (assert (d' = []);
             [unfold compile in Hd'; rewrite Hn in Hd'; cbn [bind] in Hd'; rewrite Hw in Hd';
              apply flat_run in Hd' as [Hd' _]; [exact Hd'|intros; congruence]|];
             subst d'; cbn [validate] in H2; rewrite Hd' in H2; discriminate).
      - cbn [validate] in H1, H2. unfold compile in H1, H2. rewrite Hn in H1, H2. cbn [bind] in H1, H2. rewrite Hw in H1, H2.
        destruct b; [discriminate|]. cbn [bind] in H1. rewrite for_each_one in H1. cbn [snd run_vobj] in H1.
        exact (raise_verr_not_ok _ _ _ H1).
      - destruct (fuel_demands voc f n w items v c Hn Hw H1) as [_ Hdem].
        assert (Hwfi : wf_operands view items) by (intros k n' w' m _ H3 H4; exact (Hwf n' w' m H3 H4)).
        destruct (compile_inv view strx E items Hwfi w Hw voc' n d' Hn Hd') as [HI Happ].
        assert (Hdem' : forall k m x, In k voc' -> dget (kw_key k) items = Some m -> view m = Ok x ->
          demands view strx E voc' (up (fun n v c => val f n v c = Ok tt))
            (up (fun n v c => exists e, val f n v c = Raise (EValid e))) items k m (nv_val x) v' c).
        { intros k m x Hk Hm Hx. apply (demands_same view strx E Hfmt voc voc' Hvoc _ _ items k m (nv_val x) v v' c Hs).
          apply Hdem; [apply Hvoc, Hk|exact Hm|exact Hx]. }
        apply (table_demands view strx E voc' _ _ items Happ d' v' c HI) in Hdem'.
        cbn [validate] in H2. rewrite Hd' in H2. cbn [bind] in H2.
        apply for_each_raise_in in H2 as ([k o] & Hin & H2). rewrite Forall_forall in Hdem'. specialize (Hdem' (k, o) Hin).
        cbn [snd] in *. eapply (reject_sound view E (val' g)); [| |exact H2|exact Hdem'].
        + intros n0 y' c0 e0 (y & Hy & Hok) Hr. exact (IH1 _ _ _ _ _ Hy Hok Hr).
        + intros n0 y' c0 (y & Hy & e0 & Hr) Hok. exact (IH2 _ _ _ _ _ Hy Hr Hok).
    Qed.
  End Two.
  Lemma no_flip_fuel voc voc' : (forall k, In k voc <-> In k voc') -> order_blind ->
    forall f g n v v' c e, same_value v v' ->
    (validate view strx E voc f n v c = Ok tt -> validate view strx E voc' g n v' c = Raise (EValid e) -> False) /\
    (validate view strx E voc f n v c = Raise (EValid e) -> validate view strx E voc' g n v' c = Ok tt -> False).
  Proof.
    intros Hvoc Hfmt. assert (Hvoc' : forall k, In k voc' <-> In k voc) by (intro k; symmetry; apply Hvoc).
    induction f as [|f IH]; intros g n v v' c e Hs; [split; discriminate|].
    destruct g as [|g]; [split; discriminate|]. split.
    - apply (flip_step voc voc' Hvoc Hfmt f g n v v' c e Hs).
      + intros n0 y y' c0 e0 Hy. apply (IH g n0 y y' c0 e0 Hy).
      + intros n0 y y' c0 e0 Hy. apply (IH g n0 y y' c0 e0 Hy).
    - intros H1 H2. apply (flip_step voc' voc Hvoc' Hfmt g f n v' v c e (same_value_sym _ _ Hs)); try assumption.
      + intros n0 y y' c0 e0 Hy Ha Hb. exact (proj2 (IH g n0 y' y c0 e0 (same_value_sym _ _ Hy)) Hb Ha).
      + intros n0 y y' c0 e0 Hy Ha Hb. exact (proj1 (IH g n0 y' y c0 e0 (same_value_sym _ _ Hy)) Hb Ha).
  Qed.
  Theorem no_flip voc voc' n v v' c : (forall k, In k voc <-> In k voc') -> order_blind -> same_value v v' ->
    Accepts view strx E voc n v c -> Rejects view strx E voc' n v' c -> False.
  Proof.
    intros Hvoc Hfmt Hs [f Hf] (g & e & Hg). exact (proj1 (no_flip_fuel voc voc' Hvoc Hfmt f g n v v' c e Hs) Hf Hg).
  Qed.

  (** ** Positive vocabularies *)
  Lemma demands_mono voc (acc acc' rej rej' : node -> pv -> ctx -> Prop) items k n x v c : only_requires k ->
    (forall n v c, acc n v c -> acc' n v c) ->
    demands view strx E voc acc rej items k n x v c -> demands view strx E voc acc' rej' items k n x v c.
  Proof.
    intros Hk Ha. destruct k; try contradiction; destruct x; cbn [demands]; try exact (fun H => H).
    - destruct v; cbn [for_members]; try tauto. intros H key y Hin. destruct (H key y Hin) as [H1|[H1|H1]]; auto.
    - auto.
    - destruct v; try tauto. eauto.
    - intros (vals & -> & H). eauto 6.
    - destruct b; [tauto|]. intros (vals & -> & H). eauto 6.
    - intros (vals & -> & H). eauto 6.
    - intros (vals & -> & H). eauto 6.
    - intros (vals & -> & H1 & H2 & H3). exists vals. split; [reflexivity|]. split; [exact H1|]. split; eauto.
    - intros (vals & -> & H). eauto 6.
    - destruct v; cbn [for_members]; try tauto. intros H key y Hin Hd p m Hp. destruct (H key y Hin Hd p m Hp). auto.
    - intros (vals & -> & H1 & H2). exists vals. split; [reflexivity|]. split; [exact H1|]. eauto.
    - destruct v; cbn [for_members]; try tauto. eauto.
    - destruct v; cbn [for_members]; try tauto. eauto.
  Qed.
  Lemma positive_order voc voc' : (forall k, In k voc <-> In k voc') -> order_blind ->
    (forall k, In k voc -> only_requires k) -> ~ (In KwItems voc /\ In KwPrefixItems voc) ->
    forall f n v v' c, same_value v v' -> validate view strx E voc f n v c = Ok tt -> Accepts view strx E voc' n v' c.
  Proof.
    intros Hvoc Hfmt Hpos Hno. induction f as [|f IH]; intros n v v' c Hs H1; [discriminate|].
    assert (Hc : compiles view strx E voc n).
    { pose proof H1 as H. cbn [validate] in H. apply bind_Ok in H as (d & Hd & _); exists d; exact Hd. }
    destruct (compile_order voc voc' n Hvoc Hc) as [Hc'|(H2 & H3 & _)]; [|exfalso; tauto].
    destruct (view n) as [w|e0|] eqn:Hn.
    2,3: destruct Hc as [d Hd]; unfold compile in Hd; rewrite Hn in Hd; discriminate.
    destruct (nv_val w) as [|b| | | |items] eqn:Hw;
      try (destruct Hc' as [d' Hd']; exists 1%nat; cbn [validate]; rewrite Hd'; cbn [bind];
           unfold compile in Hd'; rewrite Hn in Hd'; cbn [bind] in Hd'; rewrite Hw in Hd';
           apply flat_run in Hd' as [-> _]; [reflexivity|intros; congruence]).
    - apply (accepts_bool view strx E voc' n w b v' c Hn Hw).
      apply (accepts_bool view strx E voc n w b v c Hn Hw). exists (S f). exact H1.
    - destruct (fuel_demands voc f n w items v c Hn Hw H1) as [_ Hdem].
      apply (accepts_object view strx E voc' Hwf n w items v' c Hn Hw). split; [exact Hc'|].
      intros k m x Hk Hm Hx. apply Hvoc in Hk. specialize (Hdem k m x Hk Hm Hx).
      apply (demands_same view strx E Hfmt voc voc' Hvoc _ _ items k m (nv_val x) v v' c Hs) in Hdem.
      eapply demands_mono; [exact (Hpos k Hk)| |exact Hdem].
      intros n0 y' c0 (y & Hy & Hok). exact (IH n0 y y' c0 Hy Hok).
  Qed.

  (** ** C27 *)
  (** whatever the keywords, no reordering turns acceptance into rejection *)
  Theorem C27_reordering_never_flips voc voc' n v c : Permutation voc voc' -> order_blind ->
    Accepts view strx E voc n v c -> Rejects view strx E voc' n v c -> False.
  Proof.
    intros Hp Hfmt. apply (no_flip voc voc' n v v c); [|exact Hfmt|apply sv_same].
    intro k. split; apply Permutation_in; [exact Hp|apply Permutation_sym, Hp].
  Qed.
  (** the same verdict for vocabularies without [not], [anyOf], [oneOf], [if],
      [contains], and without [items] next to [prefixItems] (such as the
      package's own [VALIDATOR_VOCABULARY]) *)
  Theorem C27_vocabulary_order_partial voc voc' n v c : Permutation voc voc' -> order_blind ->
    (forall k, In k voc -> only_requires k) -> ~ (In KwItems voc /\ In KwPrefixItems voc) ->
    (Accepts view strx E voc n v c <-> Accepts view strx E voc' n v c).
  Proof.
    intros Hp Hfmt Hpos Hno.
    assert (Hvoc : forall k, In k voc <-> In k voc') by (intro k; split; apply Permutation_in; [exact Hp|apply Permutation_sym, Hp]).
    split; intros [f Hf].
    - exact (positive_order voc voc' Hvoc Hfmt Hpos Hno f n v v c (sv_same v) Hf).
    - refine (positive_order voc' voc _ Hfmt _ _ f n v v c (sv_same v) Hf).
      + intro k. symmetry. apply Hvoc.
      + intros k Hk. apply Hpos, Hvoc, Hk.
      + intros [H1 H2]. apply Hno. split; apply Hvoc; assumption.
  Qed.
  (** any vocabulary, when both orders settle the value (neither loops nor
      raises anything but [ValidationError]) *)
  Theorem C27_settled_order_partial voc voc' n v c : Permutation voc voc' -> order_blind ->
    (Accepts view strx E voc n v c \/ Rejects view strx E voc n v c) ->
    (Accepts view strx E voc' n v c \/ Rejects view strx E voc' n v c) ->
    (Accepts view strx E voc n v c <-> Accepts view strx E voc' n v c).
  Proof.
    intros Hp Hfmt H1 H2. split; intro H.
    - destruct H2 as [H2|H2]; [exact H2|]. exfalso. exact (C27_reordering_never_flips voc voc' n v c Hp Hfmt H H2).
    - destruct H1 as [H1|H1]; [exact H1|]. exfalso.
      exact (C27_reordering_never_flips voc' voc n v c (Permutation_sym Hp) Hfmt H H1).
  Qed.

  (** ** C31 *)
  Theorem C31_member_order_never_flips voc n v v' c : order_blind -> same_value v v' ->
    Accepts view strx E voc n v c -> Rejects view strx E voc n v' c -> False.
  Proof. intros Hfmt Hs. apply (no_flip voc voc n v v' c); [reflexivity|exact Hfmt|exact Hs]. Qed.
  Theorem C31_member_order_partial voc n v v' c : order_blind -> same_value v v' ->
    (forall k, In k voc -> only_requires k) -> ~ (In KwItems voc /\ In KwPrefixItems voc) ->
    (Accepts view strx E voc n v c <-> Accepts view strx E voc n v' c).
  Proof.
    intros Hfmt Hs Hpos Hno. split; intros [f Hf].
    - exact (positive_order voc voc (fun k => iff_refl _) Hfmt Hpos Hno f n v v' c Hs Hf).
    - exact (positive_order voc voc (fun k => iff_refl _) Hfmt Hpos Hno f n v' v c (same_value_sym _ _ Hs) Hf).
  Qed.
  Theorem C31_settled_partial voc n v v' c : order_blind -> same_value v v' ->
    (Accepts view strx E voc n v c \/ Rejects view strx E voc n v c) ->
    (Accepts view strx E voc n v' c \/ Rejects view strx E voc n v' c) ->
    (Accepts view strx E voc n v c <-> Accepts view strx E voc n v' c).
  Proof.
    intros Hfmt Hs H1 H2. split; intro H.
    - destruct H2 as [H2|H2]; [exact H2|]. exfalso. exact (C31_member_order_never_flips voc n v v' c Hfmt Hs H H2).
    - destruct H1 as [H1|H1]; [exact H1|]. exfalso.
      exact (C31_member_order_never_flips voc n v' v c Hfmt (same_value_sym _ _ Hs) H H1).
  Qed.
End Props.
