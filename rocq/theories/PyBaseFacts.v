(** Lemmas about [PyBase]. *)
From Verif Require Import PyBase.

Lemma str_eqb_eq a b : str_eqb a b = true <-> a = b.
Proof.
  revert b; induction a as [|x a IH]; intros [|y b]; simpl; split; intro H;
    try discriminate; try reflexivity.
  - apply andb_true_iff in H as [H1 H2].
    apply N.eqb_eq in H1. apply IH in H2. congruence.
  - injection H as -> ->. rewrite N.eqb_refl. simpl. apply IH. reflexivity.
Qed.
Lemma str_eqb_refl a : str_eqb a a = true.
Proof. apply str_eqb_eq; reflexivity. Qed.
Lemma str_eqb_neq a b : str_eqb a b = false <-> a <> b.
Proof.
  split; intro H.
  - intro Heq. apply str_eqb_eq in Heq. congruence.
  - destruct (str_eqb a b) eqn:E; [|reflexivity]. apply str_eqb_eq in E. contradiction.
Qed.
Lemma str_eqb_spec a b : reflect (a = b) (str_eqb a b).
Proof.
  destruct (str_eqb a b) eqn:E; constructor.
  - apply str_eqb_eq; assumption.
  - apply str_eqb_neq; assumption.
Qed.
Lemma str_eqb_sym a b : str_eqb a b = str_eqb b a.
Proof. destruct (str_eqb_spec a b), (str_eqb_spec b a); congruence. Qed.
Lemma pystr_eq_dec (a b : pystr) : {a = b} + {a <> b}.
Proof. destruct (str_eqb_spec a b); [left|right]; assumption. Qed.

Lemma str_mem_In x l : str_mem x l = true <-> In x l.
Proof.
  unfold str_mem. rewrite existsb_exists. split.
  - intros [y [Hy E]]. apply str_eqb_eq in E. subst. exact Hy.
  - intro H. exists x. split; [exact H|apply str_eqb_refl].
Qed.
Lemma str_mem_false x l : str_mem x l = false <-> ~ In x l.
Proof.
  rewrite <- str_mem_In. destruct (str_mem x l); split; congruence.
Qed.

(** ** Dictionaries *)
Section Dict.
  Context {A : Type}.
  Implicit Types d : list (pystr * A).

  Lemma dget_In k d v : dget k d = Some v -> In (k, v) d.
  Proof.
    induction d as [|[k' v'] d IH]; simpl; [discriminate|].
    destruct (str_eqb_spec k k') as [->|Hne]; intro H.
    - injection H as ->. left; reflexivity.
    - right; auto.
  Qed.
  Lemma dget_None k d : dget k d = None <-> ~ In k (dkeys d).
  Proof.
    induction d as [|[k' v'] d IH]; simpl; [tauto|].
    destruct (str_eqb_spec k k') as [->|Hne]; split; intro H.
    - discriminate.
    - exfalso; apply H; left; reflexivity.
    - intros [->|Hin]; [congruence|]. apply IH in H; contradiction.
    - apply IH. intro Hin; apply H; right; exact Hin.
  Qed.
  Lemma dmem_In k d : dmem k d = true <-> In k (dkeys d).
  Proof.
    unfold dmem. destruct (dget k d) eqn:E; split; intro H; try reflexivity; try discriminate.
    - apply dget_In in E. apply (in_map fst) in E. exact E.
    - apply dget_None in E. contradiction.
  Qed.
  Lemma dmem_false k d : dmem k d = false <-> ~ In k (dkeys d).
  Proof. rewrite <- dmem_In. destruct (dmem k d); split; congruence. Qed.
  Lemma dmem_dget k d : dmem k d = true <-> exists v, dget k d = Some v.
  Proof.
    unfold dmem; destruct (dget k d); split; intro H; eauto; try discriminate.
    destruct H; discriminate.
  Qed.
  Lemma In_dget k v d : NoDup (dkeys d) -> In (k, v) d -> dget k d = Some v.
  Proof.
    induction d as [|[k' v'] d IH]; simpl; intros Hnd Hin; [contradiction|].
    inversion Hnd as [|? ? Hnot Hnd' E]; subst.
    destruct Hin as [Heq|Hin].
    - injection Heq as -> ->. rewrite str_eqb_refl; reflexivity.
    - destruct (str_eqb_spec k k') as [->|Hne]; [|auto].
      exfalso; apply Hnot. apply (in_map fst) in Hin. exact Hin.
  Qed.
  Lemma dget_dset k k' v d : dget k (dset k' v d) = if str_eqb k k' then Some v else dget k d.
  Proof.
    induction d as [|[k1 v1] d IH]; simpl.
    - reflexivity.
    - destruct (str_eqb_spec k' k1) as [->|Hne]; simpl.
      + destruct (str_eqb_spec k k1); reflexivity.
      + rewrite IH. destruct (str_eqb_spec k k1) as [->|Hne1]; [|reflexivity].
        destruct (str_eqb_spec k1 k'); congruence.
  Qed.
  Lemma dkeys_dset k v d : dkeys (dset k v d) = if dmem k d then dkeys d else dkeys d ++ [k].
  Proof.
    induction d as [|[k' v'] d IH]; [reflexivity|].
    unfold dmem in *. cbn [dset dget].
    destruct (str_eqb_spec k k') as [->|Hne].
    - reflexivity.
    - cbn [dkeys map fst]. fold (dkeys (dset k v d)) (dkeys d). rewrite IH.
      destruct (dget k d); reflexivity.
  Qed.
  Lemma NoDup_dset k v d : NoDup (dkeys d) -> NoDup (dkeys (dset k v d)).
  Proof.
    intro H. rewrite dkeys_dset. destruct (dmem k d) eqn:E; [exact H|].
    apply dmem_false in E.
    apply (Permutation_NoDup (l := k :: dkeys d)).
    - apply Permutation_cons_append.
    - constructor; assumption.
  Qed.
  Lemma dset_same k v d : dget k d = Some v -> NoDup (dkeys d) -> dset k v d = d.
  Proof.
    induction d as [|[k' v'] d IH]; simpl; intros Hg Hnd; [discriminate|].
    destruct (str_eqb_spec k k') as [->|Hne].
    - congruence.
    - f_equal. apply IH; [exact Hg|]. inversion Hnd; assumption.
  Qed.
  Lemma dget_ddel k k' d : NoDup (dkeys d) ->
    dget k (ddel k' d) = if str_eqb k k' then None else dget k d.
  Proof.
    induction d as [|[k1 v1] d IH]; simpl; intro Hnd.
    - destruct (str_eqb k k'); reflexivity.
    - inversion Hnd as [|? ? Hnot Hnd' E]; subst.
      destruct (str_eqb_spec k' k1) as [->|Hne].
      + destruct (str_eqb_spec k k1) as [->|Hne1]; [|reflexivity].
        apply dget_None; exact Hnot.
      + simpl. rewrite IH by assumption.
        destruct (str_eqb_spec k k1) as [->|Hne1]; [|reflexivity].
        destruct (str_eqb_spec k1 k'); congruence.
  Qed.
  Lemma dkeys_ddel_In k k' d : In k (dkeys (ddel k' d)) -> In k (dkeys d).
  Proof.
    induction d as [|[k1 v1] d IH]; simpl; [tauto|].
    destruct (str_eqb k' k1); simpl; tauto.
  Qed.
  Lemma NoDup_ddel k d : NoDup (dkeys d) -> NoDup (dkeys (ddel k d)).
  Proof.
    induction d as [|[k1 v1] d IH]; simpl; intro Hnd; [constructor|].
    inversion Hnd as [|? ? Hnot Hnd' E]; subst.
    destruct (str_eqb k k1); simpl; [assumption|].
    constructor; [|auto]. intro Hin; apply Hnot. eapply dkeys_ddel_In; exact Hin.
  Qed.
  Lemma dget_perm k d1 d2 : NoDup (dkeys d1) -> Permutation d1 d2 -> dget k d1 = dget k d2.
  Proof.
    intros Hnd Hp.
    assert (Hnd2 : NoDup (dkeys d2)).
    { unfold dkeys. eapply Permutation_NoDup; [|exact Hnd]. apply Permutation_map; exact Hp. }
    destruct (dget k d1) eqn:E1.
    - symmetry. apply In_dget; [exact Hnd2|].
      eapply Permutation_in; [exact Hp|]. apply dget_In; exact E1.
    - symmetry. apply dget_None. apply dget_None in E1. intro H; apply E1.
      unfold dkeys in *. eapply Permutation_in; [|exact H].
      apply Permutation_map, Permutation_sym, Hp.
  Qed.
  Lemma dmem_perm k d1 d2 : Permutation d1 d2 -> dmem k d1 = dmem k d2.
  Proof.
    intro Hp. apply eq_true_iff_eq. rewrite !dmem_In. unfold dkeys.
    split; intro H; (eapply Permutation_in; [|exact H]); apply Permutation_map;
      [exact Hp|apply Permutation_sym; exact Hp].
  Qed.
End Dict.

Lemma dget_map {A B} (f : A -> B) k (d : list (pystr * A)) :
  dget k (map (fun kx => (fst kx, f (snd kx))) d) = option_map f (dget k d).
Proof.
  induction d as [|[k' v] d IH]; simpl; [reflexivity|].
  destruct (str_eqb k k'); [reflexivity|exact IH].
Qed.
Lemma dkeys_map {A B} (f : A -> B) (d : list (pystr * A)) :
  dkeys (map (fun kx => (fst kx, f (snd kx))) d) = dkeys d.
Proof. unfold dkeys. rewrite map_map. simpl. reflexivity. Qed.

(** ** Result monad *)
Lemma bind_Ok {A B} (m : res A) (k : A -> res B) b :
  bind m k = Ok b <-> exists a, m = Ok a /\ k a = Ok b.
Proof.
  destruct m; simpl; split; intro H; eauto; try discriminate;
    destruct H as [a' [H1 H2]]; congruence.
Qed.
Lemma bind_Raise {A B} (m : res A) (k : A -> res B) e :
  bind m k = Raise e <-> m = Raise e \/ exists a, m = Ok a /\ k a = Raise e.
Proof.
  destruct m; simpl; split; intro H.
  - right; eauto.
  - destruct H as [H|[a' [H1 H2]]]; congruence.
  - left; congruence.
  - destruct H as [H|[a' [H1 H2]]]; congruence.
  - discriminate.
  - destruct H as [H|[a' [H1 H2]]]; congruence.
Qed.
Lemma bind_assoc {A B C} (m : res A) (f : A -> res B) (g : B -> res C) :
  bind (bind m f) g = bind m (fun x => bind (f x) g).
Proof. destruct m; reflexivity. Qed.

Lemma for_each_Ok {A} (f : A -> res unit) l :
  for_each f l = Ok tt <-> Forall (fun x => f x = Ok tt) l.
Proof.
  induction l as [|x l IH]; simpl.
  - split; intro; [constructor|reflexivity].
  - rewrite bind_Ok. split.
    + intros [[] [H1 H2]]. constructor; [exact H1|apply IH; exact H2].
    + intro H; inversion H; subst. exists tt. split; [assumption|apply IH; assumption].
Qed.
Lemma for_each_first {A} (f : A -> res unit) l1 x l2 e :
  Forall (fun y => f y = Ok tt) l1 -> f x = Raise e -> for_each f (l1 ++ x :: l2) = Raise e.
Proof.
  induction 1 as [|y l1 Hy Hl IH]; simpl; intro Hx.
  - rewrite Hx; reflexivity.
  - rewrite Hy; simpl. apply IH; exact Hx.
Qed.
Lemma for_each_Raise {A} (f : A -> res unit) l e :
  for_each f l = Raise e <->
  exists l1 x l2, l = l1 ++ x :: l2 /\ Forall (fun y => f y = Ok tt) l1 /\ f x = Raise e.
Proof.
  split.
  - induction l as [|x l IH]; simpl; [discriminate|].
    intro H. apply bind_Raise in H as [H|[[] [H1 H2]]].
    + exists [], x, l. auto.
    + destruct (IH H2) as (l1 & y & l2 & -> & Hf & Hy).
      exists (x :: l1), y, l2. repeat split; auto.
  - intros (l1 & x & l2 & -> & Hf & Hx). apply for_each_first; assumption.
Qed.
Lemma for_each_app {A} (f : A -> res unit) l1 l2 :
  for_each f (l1 ++ l2) = (for_each f l1 ;;; for_each f l2).
Proof.
  induction l1 as [|x l1 IH]; simpl; [reflexivity|].
  rewrite IH. rewrite bind_assoc. reflexivity.
Qed.
Lemma for_each_ext {A} (f g : A -> res unit) l :
  (forall x, In x l -> f x = g x) -> for_each f l = for_each g l.
Proof.
  induction l as [|x l IH]; simpl; intro H; [reflexivity|].
  rewrite H by (left; reflexivity). destruct (g x); simpl; auto.
Qed.
Lemma map_res_Ok {A B} (f : A -> res B) l ys :
  map_res f l = Ok ys <-> Forall2 (fun x y => f x = Ok y) l ys.
Proof.
  revert ys; induction l as [|x l IH]; intro ys; simpl.
  - split; intro H.
    + injection H as <-. constructor.
    + inversion H; reflexivity.
  - rewrite bind_Ok. split.
    + intros [y [Hy H]]. apply bind_Ok in H as [ys' [H1 H2]]. injection H2 as <-.
      constructor; [exact Hy|]. apply IH; exact H1.
    + intro H; inversion H as [|? y ? ys' Hy Hf]; subst. exists y. split; [exact Hy|].
      apply IH in Hf. rewrite Hf. reflexivity.
Qed.
