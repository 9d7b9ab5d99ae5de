(** Supporting lemmas for the properties of composite schemas. *)
From Verif Require Import PyBase PyBaseFacts PyVal Errors Validators Keywords Spec LeafFacts Mono RunFacts KeywordFacts Master Claims ScalarFacts PropsScalar.
From Coq Require Import QArith ZifyBool.
Local Open Scope Z_scope.

Lemma dict_one {A} (d : list (pystr * A)) key o : NoDup (dkeys d) ->
  (forall k, dget k d = if str_eqb k key then Some o else None) -> d = [(key, o)].
Proof.
  intros Hnd Hg. destruct d as [|[k1 o1] d].
  - specialize (Hg key). rewrite str_eqb_refl in Hg. discriminate.
  - assert (Hk1 : k1 = key /\ o1 = o).
    { specialize (Hg k1). simpl in Hg. rewrite str_eqb_refl in Hg.
      destruct (str_eqb_spec k1 key); [|discriminate]. split; congruence. }
    destruct Hk1 as [-> ->]. destruct d as [|[k2 o2] d]; [reflexivity|exfalso].
    simpl in Hnd. inversion Hnd as [|? ? Hnot _]; subst.
    specialize (Hg k2). assert (Hne : k2 <> key) by (intros ->; apply Hnot; left; reflexivity).
    simpl in Hg. rewrite str_eqb_refl in Hg.
    destruct (str_eqb_spec k2 key); [contradiction|].
    destruct (str_eqb_spec k2 key); [contradiction|discriminate].
Qed.

Section Facts.
  Context {node : Type} (view : node -> res (nview node)) (strx : node -> pystr) (E : env).
  Variable voc : list akw.
  Hypothesis Hwf : wf_view view.
  Notation Accepts := (Accepts view strx E voc).
  Notation Rejects := (Rejects view strx E voc).
  Notation Outcome := (Outcome view strx E voc).
  Notation val := (validate view strx E voc).

  Lemma accepts_ev n v c : Accepts n v c -> ev (fun f => val f n v c = Ok tt).
  Proof. intro H. apply outcome_ev, outcome_accepts, H. Qed.
  Lemma rejects_ev n v c : Rejects n v c -> exists e, ev (fun f => val f n v c = Raise (EValid e)).
  Proof. intro H. apply rejects_outcome in H as [e H]. exists e. apply outcome_ev, H. Qed.

  (** a loop of sub-validations stops at the first one that does not accept *)
  Lemma for_each_ev {A} (f : nat -> A -> res unit) l1 x l2 e :
    (forall y, In y l1 -> ev (fun k => f k y = Ok tt)) -> ev (fun k => f k x = Raise e) ->
    ev (fun k => for_each (f k) (l1 ++ x :: l2) = Raise e).
  Proof.
    intros H1 H2.
    assert (Hall : ev (fun k => Forall (fun y => f k y = Ok tt) l1)).
    { apply (ev_Forall (fun k y => f k y = Ok tt)). apply Forall_forall. exact H1. }
    eapply ev_impl; [|exact (ev_and _ _ Hall H2)]. intros k [Ha Hb]. apply for_each_first; assumption.
  Qed.
  Lemma for_each_ev_ok {A} (f : nat -> A -> res unit) l :
    (forall y, In y l -> ev (fun k => f k y = Ok tt)) -> ev (fun k => for_each (f k) l = Ok tt).
  Proof.
    intro H1.
    assert (Hall : ev (fun k => Forall (fun y => f k y = Ok tt) l)).
    { apply (ev_Forall (fun k y => f k y = Ok tt)). apply Forall_forall. exact H1. }
    eapply ev_impl; [|exact Hall]. intros k Ha. apply for_each_Ok, Ha.
  Qed.

  (** schemas compiled to the shared object / conditional validator *)
  Lemma only_compile n w items (ks : list akw) : view n = Ok w -> nv_val w = NObj items ->
    only voc items ks -> (forall k, In k ks -> is_fam k = true) ->
    (exists k, In k voc /\ In (kw_key k) (dkeys items)) ->
    Forall (applies view strx E items) (actives items voc) ->
    compile view strx E voc n = Ok [(u "properties", VObject (objv_of view items (rev (actives items voc))))].
  Proof.
    intros Hn Hw Ho Hks (k0 & Hk0 & Hk0') Hap.
    assert (Hwfi : wf_operands view items) by (intros k1 n' w' m0 _ H1 H2; exact (Hwf n' w' m0 H1 H2)).
    assert (Hall : forall k, In k (actives items voc) -> is_fam k = true).
    { intros k Hk. apply filter_In in Hk as [H1 H2]. apply dmem_In in H2. apply Hks, (Ho k H1 H2). }
    assert (Hok : exists d, compile view strx E voc n = Ok d).
    { apply (compile_ok_iff view strx E items Hwfi w Hw voc n Hn). split; [exact Hap|].
      intros (l1 & l2 & Heq & _). assert (H : is_fam KwPrefixItems = true); [|discriminate].
      apply Hall. rewrite Heq. apply in_or_app. right. left. reflexivity. }
    destruct Hok as [d Hd]. rewrite Hd. f_equal.
    destruct (compile_inv view strx E items Hwfi w Hw voc n d Hn Hd) as [[Hnd Hexp] _].
    apply dict_one; [exact Hnd|]. intro key. rewrite Hexp. unfold expected.
    assert (Hf : existsb is_fam (rev (actives items voc)) = true).
    { apply existsb_exists. exists k0. split; [|].
      - rewrite <- in_rev. apply filter_In. split; [exact Hk0|apply dmem_In, Hk0'].
      - apply Hks, (Ho k0 Hk0 Hk0'). }
    assert (Hc : existsb is_cond (rev (actives items voc)) = false).
    { destruct (existsb is_cond (rev (actives items voc))) eqn:Hx; [|reflexivity].
      apply existsb_exists in Hx as (k & Hk & Hk'). rewrite <- in_rev in Hk. apply Hall in Hk.
      destruct k; discriminate. }
    assert (Hfil : filter is_own (rev (actives items voc)) = []).
    { assert (Hg : forall l, (forall k, In k l -> is_fam k = true) -> filter is_own l = []).
      { induction l as [|k l IH]; intro H; [reflexivity|]. simpl. unfold is_own at 1.
        rewrite (H k (or_introl eq_refl)). simpl. apply IH. intros; apply H; right; assumption. }
      apply Hg. intros k Hk. rewrite <- in_rev in Hk. apply Hall, Hk. }
    rewrite Hf, Hc, Hfil. simpl. destruct (str_eqb key (u "properties")); [reflexivity|].
    destruct (str_eqb key (u "if")); reflexivity.
  Qed.
  Lemma cond_compile n w items : view n = Ok w -> nv_val w = NObj items ->
    only voc items [KwIf; KwThen; KwElse] ->
    (exists k, In k voc /\ In (kw_key k) (dkeys items)) ->
    Forall (applies view strx E items) (actives items voc) ->
    compile view strx E voc n = Ok [(u "if", VCond (condv_of items (rev (actives items voc))))].
  Proof.
    intros Hn Hw Ho (k0 & Hk0 & Hk0') Hap.
    assert (Hwfi : wf_operands view items) by (intros k1 n' w' m0 _ H1 H2; exact (Hwf n' w' m0 H1 H2)).
    assert (Hks : forall k, In k [KwIf; KwThen; KwElse] -> is_cond k = true).
    { intros k [<-|[<-|[<-|[]]]]; reflexivity. }
    assert (Hall : forall k, In k (actives items voc) -> is_cond k = true).
    { intros k Hk. apply filter_In in Hk as [H1 H2]. apply dmem_In in H2. apply Hks, (Ho k H1 H2). }
    assert (Hok : exists d, compile view strx E voc n = Ok d).
    { apply (compile_ok_iff view strx E items Hwfi w Hw voc n Hn). split; [exact Hap|].
      intros (l1 & l2 & Heq & _). assert (H : is_cond KwPrefixItems = true); [|discriminate].
      apply Hall. rewrite Heq. apply in_or_app. right. left. reflexivity. }
    destruct Hok as [d Hd]. rewrite Hd. f_equal.
    destruct (compile_inv view strx E items Hwfi w Hw voc n d Hn Hd) as [[Hnd Hexp] _].
    apply dict_one; [exact Hnd|]. intro key. rewrite Hexp. unfold expected.
    assert (Hc : existsb is_cond (rev (actives items voc)) = true).
    { apply existsb_exists. exists k0. split; [|].
      - rewrite <- in_rev. apply filter_In. split; [exact Hk0|apply dmem_In, Hk0'].
      - apply Hks, (Ho k0 Hk0 Hk0'). }
    assert (Hf : existsb is_fam (rev (actives items voc)) = false).
    { destruct (existsb is_fam (rev (actives items voc))) eqn:Hx; [|reflexivity].
      apply existsb_exists in Hx as (k & Hk & Hk'). rewrite <- in_rev in Hk. apply Hall in Hk.
      destruct k; discriminate. }
    assert (Hfil : filter is_own (rev (actives items voc)) = []).
    { assert (Hg : forall l, (forall k, In k l -> is_cond k = true) -> filter is_own l = []).
      { induction l as [|k l IH]; intro H; [reflexivity|]. simpl. unfold is_own at 1.
        rewrite (H k (or_introl eq_refl)), andb_false_r. simpl. apply IH. intros; apply H; right; assumption. }
      apply Hg. intros k Hk. rewrite <- in_rev in Hk. apply Hall, Hk. }
    rewrite Hf, Hc, Hfil. simpl. destruct (str_eqb_spec key (u "properties")) as [->|]; [reflexivity|].
    destruct (str_eqb key (u "if")); reflexivity.
  Qed.
  (** outcome of a schema compiled to one validator *)
  Lemma one_outcome n key o v c r : compile view strx E voc n = Ok [(key, o)] -> r <> OutOfFuel ->
    ev (fun f => run_vobj view E (val f) f o v c = r) -> Outcome n v c r.
  Proof.
    intros Hc Hr [f Hf]. split; [exact Hr|]. exists (S f). cbn [validate]. rewrite Hc. cbn [bind].
    rewrite for_each_one. apply Hf. lia.
  Qed.

  (** anyOf / oneOf *)
  Lemma anyof_skip rec l1 (l2 : list node) v c last (es : node -> verr) :
    (forall s, In s l1 -> rec s v c = Raise (EValid (es s))) ->
    anyof_loop rec (l1 ++ l2) v c last =
    anyof_loop rec l2 v c (fold_left (fun _ s => Some (es s)) l1 last).
  Proof.
    revert last; induction l1 as [|s l1 IH]; intros last H; [reflexivity|].
    cbn [app anyof_loop]. rewrite (H s (or_introl eq_refl)). cbn [try_valid bind fold_left].
    apply IH. intros; apply H; right; assumption.
  Qed.
  Lemma oneof_rejects rec (l : list node) v c k last (es : node -> verr) :
    (forall s, In s l -> rec s v c = Raise (EValid (es s))) ->
    oneof_loop rec l v c k last = oneof_loop rec [] v c k (fold_left (fun _ s => Some (es s)) l last).
  Proof.
    revert last; induction l as [|s l IH]; intros last H; [reflexivity|].
    cbn [oneof_loop]. rewrite (H s (or_introl eq_refl)). cbn [try_valid bind fold_left].
    rewrite IH; [reflexivity|]. intros; apply H; right; assumption.
  Qed.
  Lemma oneof_two rec (l : list node) v c k last :
    (forall s, In s l -> rec s v c = Ok tt \/ exists e, rec s v c = Raise (EValid e)) ->
    (2 <= k)%nat -> oneof_loop rec l v c k last = raise_verr KOneOf (ctx_path c).
  Proof.
    revert k last; induction l as [|s l IH]; intros k last H Hk.
    - cbn [oneof_loop]. destruct k as [|[|k]]; try lia. reflexivity.
    - cbn [oneof_loop]. destruct (H s (or_introl eq_refl)) as [->|[e ->]]; cbn [try_valid bind]; apply IH;
        try lia; intros; apply H; right; assumption.
  Qed.
  Lemma oneof_app rec (l1 l2 : list node) v c k last :
    (forall s, In s l1 -> rec s v c = Ok tt \/ exists e, rec s v c = Raise (EValid e)) ->
    exists k' last', oneof_loop rec (l1 ++ l2) v c k last = oneof_loop rec l2 v c k' last' /\
      (k <= k')%nat /\ forall s, In s l1 -> rec s v c = Ok tt -> (S k <= k')%nat.
  Proof.
    revert k last; induction l1 as [|s l1 IH]; intros k last H.
    - exists k, last. repeat split; try lia. intros s [].
    - cbn [app oneof_loop].
      assert (H' : forall s0, In s0 l1 -> rec s0 v c = Ok tt \/ exists e, rec s0 v c = Raise (EValid e))
        by (intros; apply H; right; assumption).
      destruct (H s (or_introl eq_refl)) as [Hs|[e Hs]]; rewrite Hs; cbn [try_valid bind].
      + destruct (IH (S k) last H') as (k' & la & Heq & H1 & H2).
        exists k', la. split; [exact Heq|]. split; [lia|]. intros s' [<-|Hs'] Ho; [lia|].
        specialize (H2 s' Hs' Ho). lia.
      + destruct (IH k (Some e) H') as (k' & la & Heq & H1 & H2).
        exists k', la. split; [exact Heq|]. split; [lia|]. intros s' [<-|Hs'] Ho; [congruence|].
        exact (H2 s' Hs' Ho).
  Qed.

  (** a choice of errors for finitely many rejecting nodes, uniformly eventually *)
  Lemma rejects_uniform (l : list node) v c : (forall s, In s l -> Rejects s v c) ->
    exists es : list verr, ev (fun f => Forall2 (fun s e => val f s v c = Raise (EValid e)) l es).
  Proof.
    induction l as [|s l IH]; intro H.
    - exists []. apply ev_all. constructor.
    - destruct IH as [es Hes]; [intros; apply H; right; assumption|].
      destruct (rejects_ev s v c (H s (or_introl eq_refl))) as [e He].
      exists (e :: es). eapply ev_impl; [|exact (ev_and _ _ He Hes)]. intros f [H1 H2]. constructor; assumption.
  Qed.
  Lemma decided_ev (l : list node) v c :
    (forall s, In s l -> Accepts s v c \/ Rejects s v c) ->
    ev (fun f => forall s, In s l -> (Accepts s v c -> val f s v c = Ok tt) /\
                                     (Rejects s v c -> exists e, val f s v c = Raise (EValid e))).
  Proof.
    induction l as [|s l IH]; intro H.
    - apply ev_all. intros f s [].
    - assert (H1 : ev (fun f => (Accepts s v c -> val f s v c = Ok tt) /\
                               (Rejects s v c -> exists e, val f s v c = Raise (EValid e)))).
      { destruct (H s (or_introl eq_refl)) as [Ha|Hr].
        - eapply ev_impl; [|exact (accepts_ev s v c Ha)]. intros f Hf. split; [auto|].
          intro Hr. exfalso. exact (accepts_not_rejects view strx E voc s v c Ha Hr).
        - destruct (rejects_ev s v c Hr) as [e He]. eapply ev_impl; [|exact He]. intros f Hf. split; [|intros _; exists e; exact Hf].
          intro Ha. exfalso. exact (accepts_not_rejects view strx E voc s v c Ha Hr). }
      assert (H2 := IH (fun s' Hs' => H s' (or_intror Hs'))).
      eapply ev_impl; [|exact (ev_and _ _ H1 H2)]. intros f [Ha Hb] s' [<-|Hs']; auto.
  Qed.
End Facts.
