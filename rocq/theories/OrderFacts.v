(** Values that differ only in the order of object members, and what keywords
    demand of them. *)
From Verif Require Import PyBase PyBaseFacts PyVal Errors Validators Keywords Spec LeafFacts Mono RunFacts KeywordFacts Master Claims RejectFacts.
From Coq Require Import QArith ZifyBool Permutation.
Local Open Scope Z_scope.

(** ** Same value up to the order of object members, at any depth *)
Inductive same_value : pv -> pv -> Prop :=
| sv_same v : same_value v v
| sv_list l l' : Forall2 same_value l l' -> same_value (VList l) (VList l')
| sv_dict d d1 d' : NoDup (dkeys d) -> Permutation d d1 ->
    Forall2 (fun a b => fst a = fst b /\ same_value (snd a) (snd b)) d1 d' ->
    same_value (VDict d) (VDict d').

Lemma pv_ind_deep (P : pv -> Prop) :
  (forall v, (forall l, v <> VList l) -> (forall d, v <> VDict d) -> P v) ->
  (forall l, Forall P l -> P (VList l)) ->
  (forall d, Forall (fun kx => P (snd kx)) d -> P (VDict d)) -> forall v, P v.
Proof.
  intros H0 Hl Hd. fix IH 1. intro v. destruct v; try (apply H0; discriminate).
  - apply Hl. induction l as [|x l IHl]; constructor; [apply IH|exact IHl].
  - apply Hd. induction d as [|[k x] d IHl]; constructor; [apply IH|exact IHl].
Qed.

Lemma dget_map {A B} (f : A -> B) k (d : list (pystr * A)) :
  dget k (map (fun '(k, x) => (k, f x)) d) = option_map f (dget k d).
Proof. induction d as [|[k' x] d IH]; simpl; [reflexivity|]. destruct (str_eqb k k'); [reflexivity|exact IH]. Qed.

Lemma Forall2_len {A B} {R : A -> B -> Prop} {l l'} : Forall2 R l l' -> List.length l = List.length l'.
Proof. induction 1; simpl; congruence. Qed.
Notation aligned := (Forall2 (fun a b : pystr * pv => fst a = fst b /\ same_value (snd a) (snd b))).
Lemma al_keys d1 d' : aligned d1 d' -> dkeys d1 = dkeys d'.
Proof. induction 1 as [|a b l l' [H _] _ IH]; [reflexivity|]. unfold dkeys in *. simpl. rewrite H, IH. reflexivity. Qed.
Lemma al_member d1 d' key x' : aligned d1 d' -> In (key, x') d' -> exists x, In (key, x) d1 /\ same_value x x'.
Proof.
  induction 1 as [|[k x] [k' y] l l' [H1 H2] _ IH]; intro H; [destruct H|]. simpl in H1, H2. subst k'.
  destruct H as [H|H]; [injection H as -> ->; exists x; split; [left; reflexivity|exact H2]|].
  destruct (IH H) as (z & Hz & Hs). exists z. split; [right; exact Hz|exact Hs].
Qed.
Lemma al_get d1 d' key : aligned d1 d' ->
  match dget key d1, dget key d' with Some x, Some x' => same_value x x' | None, None => True | _, _ => False end.
Proof.
  induction 1 as [|[k x] [k' y] l l' [H1 H2] _ IH]; [exact I|]. simpl in H1, H2. subst k'. simpl.
  destruct (str_eqb key k); [exact H2|exact IH].
Qed.
Section DictFacts.
  Variable d d1 d' : list (pystr * pv).
  Hypothesis Hnd : NoDup (dkeys d).
  Hypothesis Hp : Permutation d d1.
  Hypothesis Hf : aligned d1 d'.
  Lemma sd_keys : Permutation (dkeys d) (dkeys d').
  Proof. rewrite <- (al_keys d1 d' Hf). apply Permutation_map, Hp. Qed.
  Lemma sd_nodup : NoDup (dkeys d').
  Proof. eapply Permutation_NoDup; [apply sd_keys|exact Hnd]. Qed.
  Lemma sd_in key : In key (dkeys d) <-> In key (dkeys d').
  Proof. split; apply Permutation_in; [apply sd_keys|apply Permutation_sym, sd_keys]. Qed.
  Lemma sd_length : List.length d = List.length d'.
  Proof. rewrite (Permutation_length Hp). apply (Forall2_len Hf). Qed.
  Lemma sd_member key x' : In (key, x') d' -> exists x, In (key, x) d /\ same_value x x'.
  Proof.
    intro H. destruct (al_member d1 d' key x' Hf H) as (x & Hx & Hs). exists x. split; [|exact Hs].
    eapply Permutation_in; [apply Permutation_sym, Hp|exact Hx].
  Qed.
  Lemma sd_get key : match dget key d, dget key d' with
                     | Some x, Some x' => same_value x x' | None, None => True | _, _ => False end.
  Proof. rewrite (dget_perm key d d1 Hnd Hp). apply al_get, Hf. Qed.
End DictFacts.

Lemma Forall2_flip' {A B} (R : A -> B -> Prop) l l' : Forall2 R l l' -> Forall2 (fun b a => R a b) l' l.
Proof. induction 1; constructor; assumption. Qed.
Lemma same_value_sym v v' : same_value v v' -> same_value v' v.
Proof.
  revert v'. induction v as [v Hnl Hnd|l IH|d IH] using pv_ind_deep; intros v' H.
  - inversion H; subst; [apply sv_same| |]; exfalso; [eapply Hnl|eapply Hnd]; reflexivity.
  - inversion H as [|? l' Hf|]; subst; [apply sv_same|]. apply sv_list. clear H.
    induction Hf as [|x y l l' Hx Hf IHf]; [constructor|]. inversion IH; subst. constructor; auto.
  - inversion H as [| |? d1 e Hn Hp Hf]; subst; [apply sv_same|].
    assert (IH1 : Forall (fun kx : pystr * pv => forall v', same_value (snd kx) v' -> same_value v' (snd kx)) d1).
    { eapply Permutation_Forall; [exact Hp|exact IH]. }
    assert (Hb : Forall2 (fun (b a : pystr * pv) => fst a = fst b /\ same_value (snd a) (snd b)) d1 e).
    { clear - IH1 Hf. induction Hf as [|a b l l' [H1 H2] Hf IHf]; [constructor|]. inversion IH1; subst.
      constructor; auto. }
    destruct (Permutation_Forall2 (Permutation_sym Hp) Hb) as (e' & He & Hf').
    apply (sv_dict e e' d (sd_nodup d d1 e Hn Hp Hf) He). apply Forall2_flip' in Hf'. exact Hf'.
Qed.

(** ** Comparing with a schema value does not see member order *)
Section Eq.
  Context {node : Type} (view : node -> res (nview node)).
  Notation eq_node := (eq_node view).
  Notation eq_raw := (eq_raw view).
  Fixpoint list_eq (vs : list pv) (l : list node) : res bool :=
    match vs, l with
    | x :: vs', m :: l' => b <- eq_node x m ;; if b then list_eq vs' l' else Ok false
    | _, _ => Ok true
    end.
  Fixpoint dict_eq (d : list (pystr * pv)) (items : list (pystr * node)) : res bool :=
    match items with
    | [] => Ok true
    | (k, m) :: items' =>
        match dget k d with
        | None => Ok false
        | Some x => b <- eq_node x m ;; if b then dict_eq d items' else Ok false
        end
    end.
  Lemma eq_node_list vs n : eq_node (VList vs) n =
    (w <- view n ;;
     match nv_val w with
     | NNull | NStr _ => Ok false
     | NBool _ | NNum _ => Raise EType
     | NArr l => if Nat.eqb (List.length l) (List.length vs) then list_eq vs l else Ok false
     | NObj _ => Ok false
     end).
  Proof.
    cbn [Validators.eq_node]. destruct (view n) as [w|e|]; cbn [bind]; try reflexivity.
  Qed.
  Lemma eq_node_dict d n : eq_node (VDict d) n =
    (w <- view n ;;
     match nv_val w with
     | NNull | NStr _ => Ok false
     | NBool _ | NNum _ => Raise EType
     | NArr l => Ok false
     | NObj items => if Nat.eqb (List.length items) (List.length d) then dict_eq d items else Ok false
     end).
  Proof.
    cbn [Validators.eq_node]. destruct (view n) as [w|e|]; cbn [bind]; try reflexivity.
    destruct (nv_val w); try reflexivity. destruct (Nat.eqb _ _); [|reflexivity].
    induction items as [|[k m] items IH]; [reflexivity|]. cbn [dict_eq]. rewrite dget_map.
    destruct (dget k d); cbn [option_map]; [|reflexivity]. destruct (Validators.eq_node view p m) as [[]|?|]; cbn [bind]; try reflexivity.
    exact IH.
  Qed.
  Lemma list_eq_same vs vs' l :
    Forall (fun x => forall x' n, same_value x x' -> eq_node x n = eq_node x' n) vs ->
    Forall2 same_value vs vs' -> list_eq vs l = list_eq vs' l.
  Proof.
    intros H Hf. revert l H. induction Hf as [|x y vs vs' Hx Hf IH]; intros [|m l] H; try reflexivity.
    inversion H as [|? ? H1 H2]; subst. cbn [list_eq]. rewrite (H1 y m Hx). destruct (eq_node y m) as [[]|?|]; cbn [bind]; try reflexivity.
    apply IH, H2.
  Qed.
  Lemma dict_eq_same d d1 d' items : NoDup (dkeys d) -> Permutation d d1 -> aligned d1 d' ->
    Forall (fun kx => forall x' n, same_value (snd kx) x' -> eq_node (snd kx) n = eq_node x' n) d ->
    dict_eq d items = dict_eq d' items.
  Proof.
    intros Hn Hp Hf H. induction items as [|[k m] items IH]; [reflexivity|]. cbn [dict_eq].
    pose proof (sd_get d d1 d' Hn Hp Hf k) as Hg. destruct (dget k d) as [x|] eqn:Hk, (dget k d') as [x'|]; try contradiction; [|reflexivity].
    apply dget_In in Hk. rewrite Forall_forall in H. specialize (H (k, x) Hk x' m Hg). cbn [snd] in H. rewrite H.
    destruct (eq_node x' m) as [[]|?|]; cbn [bind]; try reflexivity. exact IH.
  Qed.
  Lemma eq_node_same v v' n : same_value v v' -> eq_node v n = eq_node v' n.
  Proof.
    revert v' n. induction v as [v Hnl Hnd|l IH|d IH] using pv_ind_deep; intros v' n H.
    - inversion H; subst; [reflexivity| |]; exfalso; [eapply Hnl|eapply Hnd]; reflexivity.
    - inversion H as [|? l' Hf|]; subst; [reflexivity|]. rewrite !eq_node_list.
      destruct (view n) as [w|e|]; cbn [bind]; try reflexivity. destruct (nv_val w); try reflexivity.
      rewrite <- (Forall2_len Hf). destruct (Nat.eqb _ _); [|reflexivity]. apply list_eq_same; [exact IH|exact Hf].
    - inversion H as [| |? d1 e Hn Hp Hf]; subst; [reflexivity|]. rewrite !eq_node_dict.
      destruct (view n) as [w|e'|]; cbn [bind]; try reflexivity. destruct (nv_val w); try reflexivity.
      rewrite <- (sd_length d d1 e Hp Hf). destruct (Nat.eqb _ _); [|reflexivity].
      apply (dict_eq_same d d1 e items Hn Hp Hf IH).
  Qed.
  Lemma eq_raw_dict items d : eq_raw (NObj items) (VDict d) =
    if Nat.eqb (List.length items) (List.length d) then dict_eq d items else Ok false.
  Proof.
    cbn [Validators.eq_raw]. destruct (Nat.eqb _ _); [|reflexivity].
    induction items as [|[k m] items IH]; [reflexivity|]. cbn [dict_eq].
    destruct (dget k d); [|reflexivity]. destruct (Validators.eq_node view p m) as [[]|?|]; cbn [bind]; try reflexivity. exact IH.
  Qed.
  Lemma eq_raw_same_value y v v' : same_value v v' -> eq_raw y v = eq_raw y v'.
  Proof.
    intro H. inversion H as [|l l' Hf|d d1 e Hn Hp Hf]; subst; [reflexivity| |].
    - destruct y; try reflexivity. cbn [Validators.eq_raw]. rewrite <- (Forall2_len Hf).
      destruct (Nat.eqb _ _); [|reflexivity]. change (list_eq l l0 = list_eq l' l0). apply list_eq_same; [|exact Hf].
      apply Forall_forall. intros x _ x' n. apply eq_node_same.
    - destruct y; try reflexivity. rewrite !eq_raw_dict. rewrite <- (sd_length d d1 e Hp Hf).
      destruct (Nat.eqb _ _); [|reflexivity].
      apply (dict_eq_same d d1 e items Hn Hp Hf). apply Forall_forall. intros x _ x' n. apply eq_node_same.
  Qed.
End Eq.

Lemma same_is_bool v v' : same_value v v' -> is_bool v = is_bool v'.
Proof. intro H. inversion H; reflexivity. Qed.
Lemma same_scalar_values l l' : Forall2 same_value l l' -> (forall y, In y l -> unstructured y) -> l = l'.
Proof.
  induction 1 as [|x y l l' Hx Hf IH]; intro H; [reflexivity|]. f_equal; [|apply IH; intros; apply H; right; assumption].
  specialize (H x (or_introl eq_refl)). inversion Hx; subst; [reflexivity|contradiction|contradiction].
Qed.
Lemma keys_distinct (d : list (pystr * pv)) : NoDup (dkeys d) -> all_different (map (fun k => VStr k) (dkeys d)).
Proof.
  intros Hn i j x y Hij Hx Hy. rewrite nth_error_map in Hx, Hy.
  destruct (nth_error (dkeys d) i) as [a|] eqn:Ha; [|discriminate]. destruct (nth_error (dkeys d) j) as [b|] eqn:Hb; [|discriminate].
  injection Hx as <-. injection Hy as <-. simpl. intros ->. assert (i = j); [|lia]. apply (proj1 (NoDup_nth_error _) Hn); [apply nth_error_Some; congruence|congruence].
Qed.
Lemma count_true_perm a b : Permutation a b -> count_true a = count_true b.
Proof. induction 1; cbn [count_true]; lia. Qed.

(** ** What a keyword demands, under another order *)
Section Demands.
  Context {node : Type} (view : node -> res (nview node)) (strx : node -> pystr) (E : env).
  Hypothesis Hfmt : forall f test v v', fmt E f = Some test -> same_value v v' -> test v = test v'.
  Variable voc voc' : list akw.
  Hypothesis Hvoc : forall k, In k voc <-> In k voc'.
  Variable acc rej : node -> pv -> ctx -> Prop.
  (** some value that differs only in member order is accepted / rejected *)
  Definition up (P : node -> pv -> ctx -> Prop) : node -> pv -> ctx -> Prop :=
    fun n y' c => exists y, same_value y y' /\ P n y c.
  Notation dem := (demands view strx E voc acc rej).
  Notation dem' := (demands view strx E voc' (up acc) (up rej)).

  Lemma up_same (P : node -> pv -> ctx -> Prop) n y y' c : same_value y y' -> P n y c -> up P n y' c.
  Proof. intros H HP. exists y. auto. Qed.
  Lemma declared_voc items key : declared view voc items key <-> declared view voc' items key.
  Proof. unfold declared. rewrite (Hvoc KwProperties). reflexivity. Qed.
  Lemma pattern_matched_voc items key : pattern_matched view E voc items key <-> pattern_matched view E voc' items key.
  Proof. unfold pattern_matched. rewrite (Hvoc KwPatternProperties). reflexivity. Qed.
  Lemma additional_voc items : additional_restricts view voc items <-> additional_restricts view voc' items.
  Proof. unfold additional_restricts. rewrite (Hvoc KwAdditionalProperties). reflexivity. Qed.

  Lemma for_members_same v v' (P P' : pystr -> pv -> Prop) : same_value v v' ->
    (forall key x x', same_value x x' -> P key x -> P' key x') -> for_members v P -> for_members v' P'.
  Proof.
    intros H HP Hm. inversion H as [w|l l' Hf|d d1 e Hn Hp Hf]; subst; [| |]; cbn [for_members] in *.
    - destruct v'; try exact I. intros key x Hin. apply (HP key x x (sv_same x)), Hm, Hin.
    - exact I.
    - intros key x' Hin. destruct (sd_member d d1 e Hp Hf key x' Hin) as (x & Hx & Hs). exact (HP key x x' Hs (Hm key x Hx)).
  Qed.
  Lemma same_size v v' n : same_value v v' -> size_is v n -> size_is v' n.
  Proof.
    intro H. inversion H as [w|l l' Hf|d d1 e Hn Hp Hf]; subst; [tauto| |]; simpl.
    - rewrite (Forall2_len Hf). tauto.
    - rewrite (sd_length d d1 e Hp Hf). tauto.
  Qed.
  Lemma same_value_is v v' q : same_value v v' -> value_is v q -> value_is v' q.
  Proof. intro H. inversion H; subst; [tauto| |]; contradiction. Qed.
  Lemma same_list v l' : same_value v (VList l') -> exists l, v = VList l /\ Forall2 same_value l l'.
  Proof.
    intro H. inversion H; subst; [|eauto]. exists l'. split; [reflexivity|]. clear. induction l'; constructor; [apply sv_same|assumption].
  Qed.
  Lemma nth_same l l' i y' : Forall2 same_value l l' -> nth_error l' i = Some y' ->
    exists y, nth_error l i = Some y /\ same_value y y'.
  Proof.
    intro H. revert i. induction H as [|x y l l' Hx Hf IH]; intros [|i] Hi; try discriminate.
    - injection Hi as <-. exists x. split; [reflexivity|exact Hx].
    - apply IH, Hi.
  Qed.

  Lemma list_same l v' : same_value (VList l) v' -> exists l', v' = VList l' /\ Forall2 same_value l l'.
  Proof.
    intro H. inversion H; subst; [|eauto]. exists l. split; [reflexivity|]. clear. induction l; constructor; [apply sv_same|assumption].
  Qed.
  Lemma demands_same items k n x v v' c : same_value v v' -> dem items k n x v c -> dem' items k n x v' c.
  Proof.
    intros Hs. destruct k, x; cbn [demands]; try exact (fun H => H);
      try (intros (s & H1 & H2); exists s; split; [exact (same_size v v' s Hs H1)|exact H2]);
      try (intros (q & H1 & H2); exists q; split; [exact (same_value_is v v' q Hs H1)|exact H2]).
    - (* additionalProperties: boolean *)
      destruct b; [tauto|]. apply for_members_same; [exact Hs|]. intros key y y' _.
      rewrite (declared_voc items key), (pattern_matched_voc items key). tauto.
    - (* additionalProperties: schema *)
      apply for_members_same; [exact Hs|]. intros key y y' Hy.
      rewrite (declared_voc items key), (pattern_matched_voc items key).
      intros [H|[H|H]]; [left; exact H|right; left; exact H|right; right; exact (up_same _ _ _ _ _ Hy H)].
    - (* allOf *) intros H m Hm. exact (up_same _ _ _ _ _ Hs (H m Hm)).
    - (* anyOf *) intros (l1 & m & l2 & -> & H1 & H2). exists l1, m, l2. split; [reflexivity|].
      split; [intros m' Hm'; exact (up_same _ _ _ _ _ Hs (H1 m' Hm'))|exact (up_same _ _ _ _ _ Hs H2)].
    - (* const *) inversion Hs; subst; tauto.
    - inversion Hs; subst; tauto.
    - inversion Hs; subst; tauto.
    - inversion Hs; subst; tauto.
    - (* contains *)
      intros (elems & flags & Hit & Hf & H1 & H2 & H3).
      assert (Hup : forall l l', Forall2 same_value l l' -> forall fl,
                Forall2 (fun y (b : bool) => if b then acc n y [] else rej n y []) l fl ->
                Forall2 (fun y (b : bool) => if b then up acc n y [] else up rej n y []) l' fl).
      { induction 1 as [|y y' l l' Hy Hl IH]; intros fl H; inversion H as [|? b ? fl' Hb Hf']; subst; constructor; auto.
        destruct b; exact (up_same _ _ _ _ _ Hy Hb). }
      assert (Hid : forall l, Forall2 same_value l l) by (induction l; constructor; [apply sv_same|assumption]).
      inversion Hs as [w|l l' Hl|d d1 e Hn Hp Hal]; subst.
      + exists elems, flags. split; [exact Hit|]. split; [exact (Hup _ _ (Hid elems) _ Hf)|auto].
      + cbn [iterable] in Hit. subst elems. exists l', flags. split; [reflexivity|]. split; [exact (Hup _ _ Hl _ Hf)|auto].
      + cbn [iterable] in Hit. subst elems.
        destruct (Permutation_Forall2 (Permutation_map (fun k => VStr k) (sd_keys d d1 e Hp Hal)) Hf) as (fl' & Hp' & Hf').
        exists (map (fun k => VStr k) (dkeys e)), fl'. rewrite <- (count_true_perm _ _ Hp').
        split; [reflexivity|]. split; [exact (Hup _ _ (Hid _) _ Hf')|auto].
    - (* dependentRequired *)
      inversion Hs as [w|l l' Hl|d d1 e Hn Hp Hal]; subst; try tauto. intros H key m names H1 H2 H3 name H4.
      apply (sd_in d d1 e Hp Hal). eapply H; try eassumption. apply (sd_in d d1 e Hp Hal). exact H2.
    - (* dependentSchemas *)
      inversion Hs as [w|l l' Hl|d d1 e Hn Hp Hal]; subst; try tauto.
      + destruct v'; try tauto. intros H key m H1 H2. exact (up_same _ _ _ _ _ Hs (H key m H1 H2)).
      + intros H key m H1 H2. apply (up_same _ _ _ _ _ Hs). apply (H key m H1). apply (sd_in d d1 e Hp Hal). exact H2.
    - (* enum *)
      intros (l1 & m & l2 & y & -> & H1 & [H2 H3] & H4). exists l1, m, l2, y. split; [reflexivity|]. split; [exact H1|].
      rewrite <- (eq_raw_same_value view y v v' Hs), <- (same_is_bool v v' Hs). split; [auto|].
      intros m' y' Hm' Hy'. rewrite <- (eq_raw_same_value view y' v v' Hs). exact (H4 m' y' Hm' Hy').
    - (* format *)
      intros (test & H1 & H2). exists test. split; [exact H1|]. rewrite <- (Hfmt s test v v' H1 Hs). exact H2.
    - (* if *)
      intros [[H1 H2]|[H1 (H2 & m & H3 & H4)]].
      + left. split; [exact (up_same _ _ _ _ _ Hs H1)|]. intros Hin m Hm. apply Hvoc in Hin. exact (up_same _ _ _ _ _ Hs (H2 Hin m Hm)).
      + right. split; [exact (up_same _ _ _ _ _ Hs H1)|]. split; [apply Hvoc, H2|]. exists m. split; [exact H3|exact (up_same _ _ _ _ _ Hs H4)].
    - (* items: single schemas *)
      intros (vals & -> & H). destruct (list_same _ _ Hs) as (l' & -> & Hl). exists l'. split; [reflexivity|].
      intros i y Hy. destruct (nth_same _ _ _ _ Hl Hy) as (y0 & Hy0 & Hy1). exact (up_same _ _ _ _ _ Hy1 (H i y0 Hy0)).
    - destruct b.
      + intros (vals & ->). destruct (list_same _ _ Hs) as (l' & -> & Hl). exists l'. reflexivity.
      + intros (vals & -> & H). destruct (list_same _ _ Hs) as (l' & -> & Hl). exists l'. split; [reflexivity|].
        intros i y Hy. destruct (nth_same _ _ _ _ Hl Hy) as (y0 & Hy0 & Hy1). exact (up_same _ _ _ _ _ Hy1 (H i y0 Hy0)).
    - intros (vals & -> & H). destruct (list_same _ _ Hs) as (l' & -> & Hl). exists l'. split; [reflexivity|].
      intros i y Hy. destruct (nth_same _ _ _ _ Hl Hy) as (y0 & Hy0 & Hy1). exact (up_same _ _ _ _ _ Hy1 (H i y0 Hy0)).
    - intros (vals & -> & H). destruct (list_same _ _ Hs) as (l' & -> & Hl). exists l'. split; [reflexivity|].
      intros i y Hy. destruct (nth_same _ _ _ _ Hl Hy) as (y0 & Hy0 & Hy1). exact (up_same _ _ _ _ _ Hy1 (H i y0 Hy0)).
    - (* items: tuple *)
      intros (vals & -> & Hlen & H1 & H2). destruct (list_same _ _ Hs) as (l' & -> & Hl). exists l'. split; [reflexivity|].
      split; [rewrite <- (Forall2_len Hl); exact Hlen|]. split.
      + intros i m y Hm Hy. destruct (nth_same _ _ _ _ Hl Hy) as (y0 & Hy0 & Hy1). exact (up_same _ _ _ _ _ Hy1 (H1 i m y0 Hm Hy0)).
      + intros m w Hm Hw Hne i y Hi Hy. destruct (nth_same _ _ _ _ Hl Hy) as (y0 & Hy0 & Hy1).
        exact (up_same _ _ _ _ _ Hy1 (H2 m w Hm Hw Hne i y0 Hi Hy0)).
    - intros (vals & -> & H). destruct (list_same _ _ Hs) as (l' & -> & Hl). exists l'. split; [reflexivity|].
      intros i y Hy. destruct (nth_same _ _ _ _ Hl Hy) as (y0 & Hy0 & Hy1). exact (up_same _ _ _ _ _ Hy1 (H i y0 Hy0)).
    - (* multipleOf *)
      intros (d0 & H1 & H2). exists d0. split; [|exact H2]. inversion Hs; subst; [exact H1|contradiction|contradiction].
    - (* not *) intro H. exact (up_same _ _ _ _ _ Hs H).
    - (* oneOf *)
      intros (l1 & m & l2 & -> & H1 & H2). exists l1, m, l2. split; [reflexivity|].
      split; [exact (up_same _ _ _ _ _ Hs H1)|intros m' Hm'; exact (up_same _ _ _ _ _ Hs (H2 m' Hm'))].
    - (* pattern *)
      intros (s' & -> & H). inversion Hs; subst. exists s'. auto.
    - (* patternProperties *)
      apply for_members_same; [exact Hs|]. intros key y y' Hy H Hd p m Hin.
      rewrite <- declared_voc in Hd. destruct (H Hd p m Hin) as [H1 H2]. split; [exact H1|].
      intro H3. exact (up_same _ _ _ _ _ Hy (H2 H3)).
    - (* prefixItems *)
      intros (vals & -> & Hlen & H1). destruct (list_same _ _ Hs) as (l' & -> & Hl). exists l'. split; [reflexivity|].
      split; [rewrite <- (Forall2_len Hl); exact Hlen|].
      intros i m y Hm Hy. destruct (nth_same _ _ _ _ Hl Hy) as (y0 & Hy0 & Hy1). exact (up_same _ _ _ _ _ Hy1 (H1 i m y0 Hm Hy0)).
    - (* properties *)
      apply for_members_same; [exact Hs|]. intros key y y' Hy H m Hm. exact (up_same _ _ _ _ _ Hy (H m Hm)).
    - (* propertyNames *)
      apply for_members_same; [exact Hs|]. intros key y y' Hy H. exact (up_same _ _ _ _ _ (sv_same _) H).
    - (* required *)
      intros H m Hm. specialize (H m Hm). inversion Hs as [w|l0 l' Hl|d d1 e Hn Hp Hal]; subst; [exact H| |]; cbn [has_name] in *.
      + clear - H Hl. induction Hl as [|x y l l' Hx Hl IH]; [destruct H|]. destruct H as [->|H]; [|right; auto].
        left. inversion Hx; reflexivity.
      + apply (sd_in d d1 e Hp Hal). exact H.
    - (* type: one name *) inversion Hs; subst; tauto.
    - (* type: list *) intros (m & Hm & H). exists m. split; [exact Hm|]. inversion Hs; subst; tauto.
    - (* unevaluatedProperties *)
      destruct b; [tauto|]. apply for_members_same; [exact Hs|]. intros key y y' _.
      rewrite (declared_voc items key), (pattern_matched_voc items key), additional_voc. tauto.
    - (* uniqueItems *)
      destruct b; [|tauto]. intros (elems & Hit & Hh & Hd). inversion Hs as [w|l l' Hl|d d1 e Hn Hp Hal]; subst.
      + exists elems. auto.
      + cbn [iterable] in Hit. subst elems. rewrite <- (same_scalar_values l l' Hl Hh). exists l. split; [reflexivity|auto].
      + exists (map (fun k => VStr k) (dkeys e)). split; [reflexivity|]. split.
        * intros y Hy. apply in_map_iff in Hy as (k & <- & _). reflexivity.
        * apply keys_distinct. exact (sd_nodup d d1 e Hn Hp Hal).
  Qed.
End Demands.
