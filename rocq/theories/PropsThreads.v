(** C99: several threads may use one schema. *)
From Verif Require Import PyBase PyBaseFacts PyVal Errors Validators Keywords KeywordFacts Master Claims ExBase Threads ThreadFacts.
From Coq Require Import Lia.
Local Open Scope nat_scope.
Local Notation length := List.length (only parsing).

Lemma upd_length {A} (l : list A) i f : length (upd l i f) = length l.
Proof. revert i; induction l; intros [|i]; simpl; auto. Qed.
Lemma nth_upd {A} (l : list A) i j f :
  nth_error (upd l i f) j = if Nat.eqb i j then option_map f (nth_error l j) else nth_error l j.
Proof.
  revert i j; induction l as [|x l IH]; intros [|i] [|j]; simpl; try reflexivity.
  - destruct (Nat.eqb i j); reflexivity.
  - apply IH.
Qed.
Lemma nth_snoc {A} (l : list A) x j :
  nth_error (l ++ [x]) j = if Nat.eqb j (length l) then Some x else nth_error l j.
Proof.
  destruct (Nat.eqb_spec j (length l)) as [->|Hn].
  - rewrite nth_error_app2, Nat.sub_diag by lia. reflexivity.
  - destruct (Nat.lt_ge_cases j (length l)); [apply nth_error_app1; assumption|].
    rewrite (proj2 (nth_error_None (l ++ [x]) j)) by (rewrite app_length; simpl; lia).
    symmetry. apply nth_error_None. lia.
Qed.

(** ** The schemas a call may come to: the root and, for each of them, the values
    of the members of its [properties] *)
Section Used.
  Context {node : Type} (view : node -> res (nview node)) (root : node).
  Inductive used : node -> Prop :=
  | used_root : used root
  | used_prop n w items pn pw m k c :
      used n -> view n = Ok w -> nv_val w = NObj items -> dget (u "properties") items = Some pn ->
      view pn = Ok pw -> nv_val pw = NObj m -> In (k, c) m -> used c.
  Definition no_patterns : Prop :=
    forall n w items, used n -> view n = Ok w -> nv_val w = NObj items -> dmem (u "patternProperties") items = false.
End Used.

Section Rely.
  Context {node : Type} (view : node -> res (nview node)) (strx : node -> pystr) (E : env).
  Variable voc : list akw.
  Variable root : node.
  Hypothesis Hwf : wf_view view.
  Hypothesis Hvoc : incl voc validator_vocabulary.
  Hypothesis Hnp : no_patterns view root.
  Notation data := (list (pystr * vobj node node)).
  Notation world := (@world node).
  Notation prog := (@prog node).
  Notation entry := (@entry node).
  Notation used := (used view root).
  Notation stage := (stage view strx E voc).
  Notation whole := (whole voc).
  Lemma used_unpatterned n : used n -> unpatterned view n.
  Proof. intros H w items. apply Hnp. exact H. Qed.
  (** for each [ObjectValidator], the members it is made for *)
  Definition ghost := list (list (pystr * node)).

  Definition is_lazy (s : world) (l : lid) (n : node) : Prop := exists x, lazy_at s l = Some x /\ l_node x = n.
  Definition loaded (s : world) (l : lid) : Prop := exists x, lazy_at s l = Some x /\ l_loaded x = true.
  Definition corr (s : world) (G : ghost) (a : pystr * entry) (b : pystr * vobj node node) : Prop :=
    fst a = fst b /\
    match snd a with
    | ELeaf o => leafy view E o /\ snd b = o
    | EObj o => exists m, nth_error G o = Some m /\ snd b = props_only m /\ length m <= length (props s o)
    end.
  Definition reached (s : world) (G : ghost) (l : lid) (i : nat) : Prop :=
    exists x j d, lazy_at s l = Some x /\ i <= j /\ stage (l_node x) j = Ok d /\ Forall2 (corr s G) (l_data x) d.
  Record Inv (s : world) (G : ghost) : Prop := MkInv {
    inv_root : forall l, w_root s = Some l -> is_lazy s l root;
    inv_used : forall l n, is_lazy s l n -> used n;
    inv_zero : forall l n, is_lazy s l n -> reached s G l 0;
    inv_loaded : forall l, loaded s l -> reached s G l whole;
    inv_ghost : length G = length (w_objs s);
    inv_objs : forall o m x, nth_error G o = Some m -> obj_at s o = Some x ->
      NoDup (dkeys m) /\ (forall k c, In (k, c) m -> used c) /\ o_pats x = None /\
      (exists j, dkeys (o_props x) = firstn j (dkeys m)) /\
      (forall k l, dget k (o_props x) = Some l -> exists c, dget k m = Some c /\ is_lazy s l c) }.
  Record le (s : world) (G : ghost) (s' : world) (G' : ghost) : Prop := MkLe {
    le_root : forall l, w_root s = Some l -> exists l', w_root s' = Some l';
    le_lazy : forall l n, is_lazy s l n -> is_lazy s' l n;
    le_reach : forall l i, reached s G l i -> reached s' G' l i;
    le_loaded : forall l, loaded s l -> loaded s' l;
    le_ghost : forall o m, nth_error G o = Some m -> nth_error G' o = Some m;
    le_props : forall o, length (props s o) <= length (props s' o) }.
  Lemma le_refl s G : le s G s G.
  Proof. constructor; eauto. Qed.
  Lemma le_trans s1 G1 s2 G2 s3 G3 : le s1 G1 s2 G2 -> le s2 G2 s3 G3 -> le s1 G1 s3 G3.
  Proof.
    intros A B. constructor.
    - intros l H. destruct (le_root _ _ _ _ A _ H) as [l' H']. exact (le_root _ _ _ _ B _ H').
    - intros l n H. apply (le_lazy _ _ _ _ B), (le_lazy _ _ _ _ A), H.
    - intros l i H. apply (le_reach _ _ _ _ B), (le_reach _ _ _ _ A), H.
    - intros l H. apply (le_loaded _ _ _ _ B), (le_loaded _ _ _ _ A), H.
    - intros o m H. apply (le_ghost _ _ _ _ B), (le_ghost _ _ _ _ A), H.
    - intro o. pose proof (le_props _ _ _ _ A o). pose proof (le_props _ _ _ _ B o). lia.
  Qed.

  (** a thread that will have the outcome [r], whatever the others do *)
  Inductive safe (r : res unit) : prog -> world -> ghost -> Prop :=
  | safe_done s G : safe r (Done r) s G
  | safe_op p s G :
      (forall s' G', Inv s' G' -> le s G s' G' ->
         exists G'', Inv (fst (step s' p)) G'' /\ le s' G' (fst (step s' p)) G'' /\
                     safe r (snd (step s' p)) (fst (step s' p)) G'') ->
      safe r p s G.
  Lemma safe_mono r p s G s' G' : safe r p s G -> le s G s' G' -> safe r p s' G'.
  Proof.
    intros H HL. inversion H as [|? ? ? H1]; subst; [apply safe_done|]. apply safe_op. intros s2 G2 HI HL2.
    apply H1; [exact HI|]. eapply le_trans; eassumption.
  Qed.
  (** a read *)
  Lemma safe_get r p s G (HI0 : Inv s G) :
    (forall s', fst (step s' p) = s') ->
    (forall s' G', Inv s' G' -> le s G s' G' -> safe r (snd (step s' p)) s' G') -> safe r p s G.
  Proof.
    intros Hs H. apply safe_op. intros s' G' HI HL. exists G'. rewrite Hs.
    split; [exact HI|]. split; [apply le_refl|]. apply H; assumption.
  Qed.

  (** *** What the writes do *)
  Lemma corr_mono s G s' G' a b :
    (forall o m, nth_error G o = Some m -> nth_error G' o = Some m) ->
    (forall o, length (props s o) <= length (props s' o)) -> corr s G a b -> corr s' G' a b.
  Proof.
    intros HG HP [H1 H2]. split; [exact H1|]. destruct (snd a) as [o|o]; [exact H2|].
    destruct H2 as (m & H3 & H4 & H5). exists m. split; [apply HG; exact H3|]. split; [exact H4|]. specialize (HP o). lia.
  Qed.
  Lemma Forall2_corr_mono s G s' G' l d :
    (forall o m, nth_error G o = Some m -> nth_error G' o = Some m) ->
    (forall o, length (props s o) <= length (props s' o)) -> Forall2 (corr s G) l d -> Forall2 (corr s' G') l d.
  Proof. intros HG HP F. induction F; constructor; auto. eapply corr_mono; eassumption. Qed.
  Lemma Forall2_length' {A B} (R : A -> B -> Prop) l m : Forall2 R l m -> length l = length m.
  Proof. intro F. induction F; simpl; auto. Qed.
  Lemma Forall2_dset (R : pystr * entry -> pystr * vobj node node -> Prop) l d k e o :
    (forall a b, R a b -> fst a = fst b) -> Forall2 R l d -> R (k, e) (k, o) -> Forall2 R (dset k e l) (dset k o d).
  Proof.
    intros HR F Hn. induction F as [|[k1 e1] [k2 o2] l d H1 F IH]; simpl; [constructor; auto|].
    pose proof (HR _ _ H1) as Hk. simpl in Hk. subst k2. destruct (str_eqb k k1) eqn:Hkk.
    - apply str_eqb_eq in Hkk. subst k1. constructor; assumption.
    - constructor; assumption.
  Qed.
  Lemma Forall2_dget (R : pystr * entry -> pystr * vobj node node -> Prop) l d k :
    (forall a b, R a b -> fst a = fst b) -> Forall2 R l d ->
    match dget k l, dget k d with
    | Some e, Some o => R (k, e) (k, o)
    | None, None => True
    | _, _ => False
    end.
  Proof.
    intros HR F. induction F as [|[k1 e1] [k2 o2] l d H1 F IH]; simpl; [exact I|].
    pose proof (HR _ _ H1) as Hk. simpl in Hk. subst k2. destruct (str_eqb_spec k k1) as [->|]; [exact H1|exact IH].
  Qed.
  Lemma corr_fst s G a b : corr s G a b -> fst a = fst b.
  Proof. intros [H _]. exact H. Qed.

  Lemma put_entry s G l n i i' key e d o :
    Inv s G -> is_lazy s l n -> reached s G l i -> i <= i' ->
    stage n i = Ok d -> stage n i' = Ok (dset key o d) -> corr s G (key, e) (key, o) ->
    let s' := set_lazy s l (fun x => LCell (l_node x) (l_loaded x) (dset key e (l_data x))) in
    Inv s' G /\ le s G s' G /\ reached s' G l i'.
  Proof.
    intros HI (x0 & Hx0 & Hn) (x & j & dj & Hx & Hij & Hdj & HF) Hii Hd Hd' Hc s'.
    rewrite Hx0 in Hx. injection Hx as <-. rewrite Hn in Hdj.
    assert (Hu : unpatterned view n) by (apply used_unpatterned, (inv_used _ _ HI l); exists x0; auto).
    set (x' := LCell (l_node x0) (l_loaded x0) (dset key e (l_data x0))).
    assert (Hat : forall l', lazy_at s' l' = if Nat.eqb l l' then Some x' else lazy_at s l').
    { intro l'. unfold lazy_at, s', set_lazy. simpl. rewrite nth_upd. destruct (Nat.eqb_spec l l') as [<-|]; [|reflexivity].
      unfold lazy_at in Hx0. rewrite Hx0. reflexivity. }
    assert (Hpr : forall o', props s' o' = props s o') by reflexivity.
    assert (Hlz : forall l' n', is_lazy s' l' n' <-> is_lazy s l' n').
    { intros l' n'. unfold is_lazy. rewrite Hat. destruct (Nat.eqb_spec l l') as [<-|]; [|reflexivity].
      split; intros (y & Hy & Hyn); [injection Hy as <-; exists x0; auto|].
      rewrite Hx0 in Hy. injection Hy as <-. exists x'; auto. }
    assert (Hld : forall l', loaded s' l' <-> loaded s l').
    { intros l'. unfold loaded. rewrite Hat. destruct (Nat.eqb_spec l l') as [<-|]; [|reflexivity].
      split; intros (y & Hy & Hyn); [injection Hy as <-; exists x0; auto|].
      rewrite Hx0 in Hy. injection Hy as <-. exists x'; auto. }
    (* any stage at or past [i] with the table's entries gives a stage past [i'] *)
    assert (Hnew : forall J, i <= J -> stage n J = Ok dj -> exists J' dJ, J <= J' /\ i' <= J' /\ stage n J' = Ok dJ /\ Forall2 (corr s' G) (l_data x') dJ).
    { intros J HJ HdJ.
      assert (Hset : Forall2 (corr s' G) (l_data x') (dset key o dj)).
      { simpl. apply (Forall2_dset (corr s G)); [apply corr_fst|exact HF|exact Hc]. }
      destruct (Nat.le_gt_cases i' J) as [HiJ|HiJ].
      - exists J, dj. repeat split; try lia; [exact HdJ|].
        rewrite <- (dset_after key o d dj); [exact Hset|]. exact (stage_ext view strx E voc Hwf Hvoc n i' J _ _ Hu HiJ Hd' HdJ).
      - exists i', (dset key o d). repeat split; try lia; [exact Hd'|].
        rewrite <- (dset_between key o d dj); [exact Hset| |].
        + exact (stage_ext view strx E voc Hwf Hvoc n i J _ _ Hu HJ Hd HdJ).
        + exact (stage_ext view strx E voc Hwf Hvoc n J i' _ _ Hu (Nat.lt_le_incl _ _ HiJ) HdJ Hd'). }
    assert (Hrc : forall l' i0, reached s G l' i0 -> reached s' G l' i0).
    { intros l' i0 (y & j0 & d0 & Hy & Hi0 & Hd0 & HF0). destruct (Nat.eqb_spec l l') as [<-|Hne].
      - rewrite Hx0 in Hy. injection Hy as <-. rewrite Hn in Hd0.
        assert (Hlen : length d0 = length dj).
        { rewrite <- (Forall2_length' _ _ _ HF), <- (Forall2_length' _ _ _ HF0). reflexivity. }
        assert (Hsame : d0 = dj).
        { destruct (Nat.le_ge_cases j0 j) as [Hl|Hl].
          - apply ext_same; [|exact Hlen]. exact (stage_ext view strx E voc Hwf Hvoc n j0 j _ _ Hu Hl Hd0 Hdj).
          - symmetry. apply ext_same; [|symmetry; exact Hlen]. exact (stage_ext view strx E voc Hwf Hvoc n j j0 _ _ Hu Hl Hdj Hd0). }
        subst d0.
        destruct (Hnew (Nat.max j j0)) as (J' & dJ & HJ1 & HJ2 & HJ3 & HJ4); [lia| |].
        { destruct (Nat.max_spec j j0) as [[_ ->]|[_ ->]]; assumption. }
        exists x', J', dJ. rewrite Hat, Nat.eqb_refl. repeat split; [lia| |exact HJ4]. simpl. rewrite Hn. exact HJ3.
      - exists y, j0, d0. rewrite Hat. destruct (Nat.eqb_spec l l'); [contradiction|].
        repeat split; try assumption. }
    split; [|split].
    - constructor.
      + intros l' H. apply Hlz. exact (inv_root _ _ HI l' H).
      + intros l' n' H. apply (inv_used _ _ HI l'). apply Hlz; exact H.
      + intros l' n' H. apply Hrc. apply (inv_zero _ _ HI l' n'). apply Hlz; exact H.
      + intros l' H. apply Hrc. apply (inv_loaded _ _ HI l'). apply Hld; exact H.
      + exact (inv_ghost _ _ HI).
      + intros o' m y Hm Hy. destruct (inv_objs _ _ HI o' m y Hm Hy) as (A & B & C & D & F). repeat split; try assumption.
        intros k l' Hl'. destruct (F k l' Hl') as (c & Hc1 & Hc2). exists c. split; [exact Hc1|apply Hlz; exact Hc2].
    - constructor.
      + intros l' H. exists l'. exact H.
      + intros l' n' H. apply Hlz; exact H.
      + exact Hrc.
      + intros l' H. apply Hld; exact H.
      + auto.
      + intro o'. rewrite Hpr. lia.
    - destruct (Hnew j Hij Hdj) as (J' & dJ & HJ1 & HJ2 & HJ3 & HJ4).
      exists x', J', dJ. rewrite Hat, Nat.eqb_refl. repeat split; [exact HJ2| |exact HJ4]. simpl. rewrite Hn. exact HJ3.
  Qed.
  Lemma put_loaded s G l n :
    Inv s G -> is_lazy s l n -> reached s G l whole ->
    let s' := set_lazy s l (fun x => LCell (l_node x) true (l_data x)) in
    Inv s' G /\ le s G s' G.
  Proof.
    intros HI (x0 & Hx0 & Hn) HW s'. set (x' := LCell (l_node x0) true (l_data x0)).
    assert (Hat : forall l', lazy_at s' l' = if Nat.eqb l l' then Some x' else lazy_at s l').
    { intro l'. unfold lazy_at, s', set_lazy. simpl. rewrite nth_upd. destruct (Nat.eqb_spec l l') as [<-|]; [|reflexivity].
      unfold lazy_at in Hx0. rewrite Hx0. reflexivity. }
    assert (Hlz : forall l' n', is_lazy s' l' n' <-> is_lazy s l' n').
    { intros l' n'. unfold is_lazy. rewrite Hat. destruct (Nat.eqb_spec l l') as [<-|]; [|reflexivity].
      split; intros (y & Hy & Hyn); [injection Hy as <-; exists x0; auto|].
      rewrite Hx0 in Hy. injection Hy as <-. exists x'; auto. }
    assert (Hrc : forall l' i0, reached s G l' i0 -> reached s' G l' i0).
    { intros l' i0 (y & j0 & d0 & Hy & Hi0 & Hd0 & HF0). unfold reached. rewrite Hat.
      destruct (Nat.eqb_spec l l') as [<-|Hne]; [|exists y, j0, d0; auto].
      rewrite Hx0 in Hy. injection Hy as <-. exists x', j0, d0. auto. }
    split; constructor.
    - intros l' H. apply Hlz. exact (inv_root _ _ HI l' H).
    - intros l' n' H. apply (inv_used _ _ HI l'). apply Hlz; exact H.
    - intros l' n' H. apply Hrc. apply (inv_zero _ _ HI l' n'). apply Hlz; exact H.
    - intros l' (y & Hy & Hyl). apply Hrc. rewrite Hat in Hy. destruct (Nat.eqb_spec l l') as [<-|Hne]; [exact HW|].
      apply (inv_loaded _ _ HI l'). exists y; auto.
    - exact (inv_ghost _ _ HI).
    - intros o' m y Hm Hy. destruct (inv_objs _ _ HI o' m y Hm Hy) as (A & B & C & D & F). repeat split; try assumption.
      intros k l' Hl'. destruct (F k l' Hl') as (c & Hc1 & Hc2). exists c. split; [exact Hc1|apply Hlz; exact Hc2].
    - intros l' H. exists l'. exact H.
    - intros l' n' H. apply Hlz; exact H.
    - exact Hrc.
    - intros l' (y & Hy & Hyl). unfold loaded. rewrite Hat. destruct (Nat.eqb_spec l l') as [<-|Hne]; [exists x'; auto|exists y; auto].
    - auto.
    - intro o'. apply le_n.
  Qed.
  Lemma put_root s G l : Inv s G -> is_lazy s l root ->
    let s' := World (Some l) (w_lazy s) (w_objs s) (w_pats s) in Inv s' G /\ le s G s' G.
  Proof.
    intros HI Hl s'. split; constructor; try (exact (inv_ghost _ _ HI)); try (exact (inv_used _ _ HI)); try (exact (inv_zero _ _ HI));
      try (exact (inv_loaded _ _ HI)); try (exact (inv_objs _ _ HI)); auto.
    - intros l' [= <-]. exact Hl.
    - intros l' _. exists l. reflexivity.
  Qed.
  Lemma new_lazy s G n : Inv s G -> used n ->
    let s' := World (w_root s) (w_lazy s ++ [LCell n false []]) (w_objs s) (w_pats s) in
    Inv s' G /\ le s G s' G /\ is_lazy s' (length (w_lazy s)) n.
  Proof.
    intros HI Hu s'.
    assert (Hat : forall l', lazy_at s' l' = if Nat.eqb l' (length (w_lazy s)) then Some (LCell n false []) else lazy_at s l').
    { intro l'. unfold lazy_at, s'. simpl. apply nth_snoc. }
    assert (Hold : forall l' x, lazy_at s l' = Some x -> lazy_at s' l' = Some x).
    { intros l' x H. rewrite Hat. destruct (Nat.eqb_spec l' (length (w_lazy s))) as [->|]; [|exact H].
      unfold lazy_at in H. rewrite (proj2 (nth_error_None _ _)) in H by lia. discriminate. }
    assert (Hlz : forall l' n', is_lazy s l' n' -> is_lazy s' l' n').
    { intros l' n' (x & Hx & Hn). exists x. auto. }
    assert (Hrc : forall l' i, reached s G l' i -> reached s' G l' i).
    { intros l' i (x & j & d & Hx & H). exists x, j, d. split; [auto|exact H]. }
    split; [|split].
    - constructor.
      + intros l' H. apply Hlz. exact (inv_root _ _ HI l' H).
      + intros l' n' (x & Hx & Hn). rewrite Hat in Hx. destruct (Nat.eqb l' (length (w_lazy s))).
        * injection Hx as <-. simpl in Hn. subst n'. exact Hu.
        * apply (inv_used _ _ HI l'). exists x; auto.
      + intros l' n' (x & Hx & Hn). pose proof Hx as Hx'. rewrite Hat in Hx. destruct (Nat.eqb l' (length (w_lazy s))).
        * injection Hx as <-. exists (LCell n false []), 0, []. repeat split; [exact Hx'|lia|constructor].
        * apply Hrc, (inv_zero _ _ HI l' n'). exists x; auto.
      + intros l' (x & Hx & Hn). rewrite Hat in Hx. destruct (Nat.eqb l' (length (w_lazy s))).
        * injection Hx as <-. discriminate.
        * apply Hrc, (inv_loaded _ _ HI l'). exists x; auto.
      + exact (inv_ghost _ _ HI).
      + intros o' m y Hm Hy. destruct (inv_objs _ _ HI o' m y Hm Hy) as (A & B & C & D & F). repeat split; try assumption.
        intros k l' Hl'. destruct (F k l' Hl') as (c & Hc1 & Hc2). exists c. split; [exact Hc1|apply Hlz; exact Hc2].
    - constructor; auto.
      + intros l' H. exists l'. exact H.
      + intros l' (x & Hx & Hn). exists x. auto.
    - exists (LCell n false []). rewrite Hat, Nat.eqb_refl. auto.
  Qed.
  Lemma new_obj s G m : Inv s G -> NoDup (dkeys m) -> (forall k c, In (k, c) m -> used c) ->
    let s' := World (w_root s) (w_lazy s) (w_objs s ++ [OCell [] None]) (w_pats s) in
    Inv s' (G ++ [m]) /\ le s G s' (G ++ [m]) /\ nth_error (G ++ [m]) (length (w_objs s)) = Some m.
  Proof.
    intros HI Hnd Hc s'.
    assert (Hat : forall o, obj_at s' o = if Nat.eqb o (length (w_objs s)) then Some (OCell [] None) else obj_at s o).
    { intro o. unfold obj_at, s'. simpl. apply nth_snoc. }
    assert (Hgh : forall o, nth_error (G ++ [m]) o = if Nat.eqb o (length (w_objs s)) then Some m else nth_error G o).
    { intro o. rewrite nth_snoc, (inv_ghost _ _ HI). reflexivity. }
    assert (HG : forall o m', nth_error G o = Some m' -> nth_error (G ++ [m]) o = Some m').
    { intros o m' H. rewrite nth_error_app1; [exact H|]. apply nth_error_Some. congruence. }
    assert (HP : forall o, length (props s o) <= length (props s' o)).
    { intro o. unfold props. rewrite Hat. destruct (Nat.eqb_spec o (length (w_objs s))) as [->|]; [|lia].
      unfold obj_at. rewrite (proj2 (nth_error_None _ _)) by lia. simpl. lia. }
    assert (Hrc : forall l' i, reached s G l' i -> reached s' (G ++ [m]) l' i).
    { intros l' i (x & j & d & Hx & H1 & H2 & H3). exists x, j, d. split; [exact Hx|]. split; [exact H1|]. split; [exact H2|].
      eapply Forall2_corr_mono; eassumption. }
    split; [|split].
    - constructor.
      + exact (inv_root _ _ HI).
      + exact (inv_used _ _ HI).
      + intros l' n' H. apply Hrc, (inv_zero _ _ HI l' n'), H.
      + intros l' H. apply Hrc, (inv_loaded _ _ HI l'), H.
      + unfold s'. simpl. rewrite !app_length, (inv_ghost _ _ HI). reflexivity.
      + intros o m' y Hm Hy. rewrite Hat in Hy. rewrite Hgh in Hm. destruct (Nat.eqb o (length (w_objs s))).
        * injection Hy as <-. injection Hm as <-. simpl. repeat split; try assumption; [exists 0; reflexivity|discriminate].
        * exact (inv_objs _ _ HI o m' y Hm Hy).
    - constructor; auto. intros l' H. exists l'. exact H.
    - rewrite Hgh, Nat.eqb_refl. reflexivity.
  Qed.
  Lemma put_prop s G o m i k c l :
    Inv s G -> nth_error G o = Some m -> i <= length (props s o) -> nth_error m i = Some (k, c) -> is_lazy s l c ->
    let s' := set_obj s o (fun x => OCell (dset k l (o_props x)) (o_pats x)) in
    Inv s' G /\ le s G s' G /\ S i <= length (props s' o).
  Proof.
    intros HI Hm Hi Hk Hl s'.
    assert (Hox : exists x, obj_at s o = Some x).
    { unfold obj_at. destruct (nth_error (w_objs s) o) as [x|] eqn:Hx; [eauto|]. apply nth_error_None in Hx.
      assert (o < length G) by (apply nth_error_Some; congruence). rewrite (inv_ghost _ _ HI) in *. lia. }
    destruct Hox as [x Hx]. destruct (inv_objs _ _ HI o m x Hm Hx) as (Hnd & Hus & Hpt & (j & Hj) & Hch).
    assert (Hps : props s o = o_props x) by (unfold props; rewrite Hx; reflexivity). rewrite Hps in Hi.
    set (x' := OCell (dset k l (o_props x)) (o_pats x)).
    assert (Hat : forall o', obj_at s' o' = if Nat.eqb o o' then Some x' else obj_at s o').
    { intro o'. unfold obj_at, s', set_obj. simpl. rewrite nth_upd. destruct (Nat.eqb_spec o o') as [<-|]; [|reflexivity].
      unfold obj_at in Hx. rewrite Hx. reflexivity. }
    assert (Hlen : length (o_props x) = Nat.min j (length m)).
    { transitivity (length (dkeys (o_props x))); [symmetry; apply map_length|]. rewrite Hj, firstn_length. f_equal. apply map_length. }
    assert (Him : i < length m) by (apply nth_error_Some; congruence).
    assert (Hki : nth_error (dkeys m) i = Some k).
    { unfold dkeys. rewrite nth_error_map, Hk. reflexivity. }
    (* the key is there already, or is the next one *)
    assert (Hkeys : exists j', dkeys (o_props x') = firstn j' (dkeys m) /\ S i <= length (o_props x') /\ length (o_props x) <= length (o_props x')).
    { unfold x'. simpl. assert (Hdk := dkeys_dset k l (o_props x)).
      assert (Hl' : length (dset k l (o_props x)) = length (dkeys (dset k l (o_props x)))) by (symmetry; apply map_length).
      assert (Hl0 : length (o_props x) = length (dkeys (o_props x))) by (symmetry; apply map_length).
      destruct (Nat.lt_ge_cases i (length (o_props x))) as [Hlt|Hge].
      - assert (Hin : dmem k (o_props x) = true).
        { apply dmem_In. rewrite Hj. apply nth_error_In with i. rewrite <- Hki.
          rewrite <- (firstn_skipn j (dkeys m)) at 2. rewrite nth_error_app1; [reflexivity|].
          rewrite firstn_length. unfold dkeys. rewrite map_length. lia. }
        rewrite Hin in Hdk. exists j. rewrite Hdk, Hj. split; [reflexivity|]. rewrite Hl', Hdk. lia.
      - assert (Hje : i = j) by lia. subst j.
        destruct (dmem k (o_props x)) eqn:Hin.
        + exfalso. apply dmem_In in Hin. rewrite Hj in Hin.
          assert (Hnd' := Hnd). rewrite <- (firstn_skipn i (dkeys m)) in Hnd'.
          assert (Hsk : skipn i (dkeys m) = k :: skipn (S i) (dkeys m)).
          { clear -Hki. revert Hki. generalize (dkeys m) as l0. intro l0. revert l0. induction i as [|i IH]; intros [|y l0] H; simpl in *; try discriminate; [injection H as ->; reflexivity|apply IH; exact H]. }
          rewrite Hsk in Hnd'. apply NoDup_remove_2 in Hnd'. apply Hnd'. apply in_or_app; left; exact Hin.
        + exists (S i). rewrite Hdk, Hj. split.
          * clear -Hki. revert Hki. generalize (dkeys m) as l0. intro l0. revert l0.
            induction i as [|i IH]; intros [|y l0] H; simpl in *; try discriminate; [injection H as ->; reflexivity|]. f_equal. apply IH; exact H.
          * rewrite Hl', Hdk, app_length. simpl. lia. }
    destruct Hkeys as (j' & Hj' & Hsi & Hgrow).
    assert (HP : forall o', length (props s o') <= length (props s' o')).
    { intro o'. unfold props. rewrite Hat. destruct (Nat.eqb_spec o o') as [<-|]; [|lia]. rewrite Hx. exact Hgrow. }
    assert (Hrc : forall l' i, reached s G l' i -> reached s' G l' i).
    { intros l' i0 (y & j0 & d & Hy & H1 & H2 & H3). exists y, j0, d. split; [exact Hy|]. split; [exact H1|]. split; [exact H2|].
      eapply Forall2_corr_mono; [|exact HP|exact H3]. auto. }
    split; [|split].
    - constructor.
      + exact (inv_root _ _ HI).
      + exact (inv_used _ _ HI).
      + intros l' n' H. apply Hrc, (inv_zero _ _ HI l' n'), H.
      + intros l' H. apply Hrc, (inv_loaded _ _ HI l'), H.
      + unfold s'. simpl. rewrite upd_length. exact (inv_ghost _ _ HI).
      + intros o' m' y Hm' Hy. rewrite Hat in Hy. destruct (Nat.eqb_spec o o') as [<-|].
        * injection Hy as <-. rewrite Hm in Hm'. injection Hm' as <-. repeat split; try assumption; [eauto|].
          intros k0 l0 H0. simpl in H0. rewrite dget_dset in H0. destruct (str_eqb_spec k0 k) as [->|].
          -- injection H0 as <-. exists c. split; [|exact Hl]. apply In_dget; [exact Hnd|]. apply nth_error_In with i; exact Hk.
          -- exact (Hch k0 l0 H0).
        * exact (inv_objs _ _ HI o' m' y Hm' Hy).
    - constructor; auto. intros l' H. exists l'. exact H.
    - unfold props. rewrite Hat, Nat.eqb_refl. exact Hsi.
  Qed.

  (** *** The programs *)
  Notation fill_prog o := (fill (@PutProp node o)).
  Lemma skipn_nth {A} i (l : list A) : skipn i l = match nth_error l i with Some x => x :: skipn (S i) l | None => [] end.
  Proof. revert l; induction i as [|i IH]; intros [|x l]; simpl; try reflexivity. apply IH. Qed.
  Lemma props_members s G o m : Inv s G -> nth_error G o = Some m -> forall k c, In (k, c) m -> used c.
  Proof.
    intros HI Hm. destruct (obj_at s o) as [x|] eqn:Hx; [exact (proj1 (proj2 (inv_objs _ _ HI o m x Hm Hx)))|].
    exfalso. unfold obj_at in Hx. apply nth_error_None in Hx. rewrite <- (inv_ghost _ _ HI) in Hx.
    assert (o < length G) by (apply nth_error_Some; congruence). lia.
  Qed.
  Lemma safe_fill r o m k rem i s G :
    length m = rem + i -> Inv s G -> nth_error G o = Some m -> i <= length (props s o) ->
    (forall s' G', Inv s' G' -> le s G s' G' -> length m <= length (props s' o) -> safe r k s' G') ->
    safe r (fill (@PutProp node o) (skipn i m) k) s G.
  Proof.
    revert i s G; induction rem as [|rem IH]; intros i s G Hlen HI Hm Hi Hk; rewrite skipn_nth.
    - rewrite (proj2 (nth_error_None m i)) by lia. simpl. apply Hk; [exact HI|apply le_refl|lia].
    - destruct (nth_error m i) as [[key c]|] eqn:Hn; [|apply nth_error_None in Hn; lia].
      cbn [fill]. apply safe_op. intros s1 G1 HI1 HL1. cbn [step fst snd].
      assert (Hu : used c) by (apply (props_members s G o m HI Hm key); apply nth_error_In with i; exact Hn).
      destruct (new_lazy s1 G1 c HI1 Hu) as (HI2 & HL2 & Hlz). exists G1. split; [exact HI2|]. split; [exact HL2|].
      apply safe_op. intros s3 G3 HI3 HL3. cbn [step fst snd].
      assert (HL : le s G s3 G3) by (eapply le_trans; [exact HL1|]; eapply le_trans; eassumption).
      assert (Hm3 : nth_error G3 o = Some m) by (apply (le_ghost _ _ _ _ HL); exact Hm).
      assert (Hi3 : i <= length (props s3 o)) by (pose proof (le_props _ _ _ _ HL o); lia).
      destruct (put_prop s3 G3 o m i key c _ HI3 Hm3 Hi3 Hn (le_lazy _ _ _ _ HL3 _ _ Hlz)) as (HI4 & HL4 & Hi4).
      exists G3. split; [exact HI4|]. split; [exact HL4|].
      apply IH; [lia|exact HI4|exact Hm3|exact Hi4|].
      intros s5 G5 HI5 HL5 Hfull. apply Hk; [exact HI5| |exact Hfull].
      eapply le_trans; [exact HL|]. eapply le_trans; eassumption.
  Qed.
  Lemma Forall2_nth {A B} (R : A -> B -> Prop) l m : Forall2 R l m -> forall i,
    match nth_error m i with Some y => match nth_error l i with Some x => R x y | None => False end | None => True end.
  Proof. intro F. induction F as [|x y l m H F IH]; intros [|i]; [exact I|exact I|exact H|exact (IH i)]. Qed.
  Lemma whole_stays n j d : whole <= j -> stage n j = Ok d -> stage n whole = Ok d.
  Proof.
    intros Hj. unfold ThreadFacts.whole in *. destruct j as [|j]; [lia|]. unfold ThreadFacts.stage.
    destruct (view n) as [w|e|]; cbn [bind]; auto. destruct (nv_val w); auto; rewrite !firstn_all2 by lia; auto.
  Qed.
  Definition said {A} (r : res A) : res unit :=
    match r with Ok _ => Ok tt | Raise e => Raise e | OutOfFuel => OutOfFuel end.

  (** a stage of an object node is what the keywords made *)
  Lemma entry_reached s G l n i d : Inv s G -> is_lazy s l n -> reached s G l i -> stage n i = Ok d ->
    exists j dj, i <= j /\ stage n j = Ok dj /\ Forall2 (corr s G) (entries s l) dj.
  Proof.
    intros HI (x & Hx & Hn) (y & j & dj & Hy & Hij & Hdj & HF) Hd. rewrite Hx in Hy. injection Hy as <-.
    rewrite Hn in Hdj. exists j, dj. unfold entries. rewrite Hx. auto.
  Qed.
  Lemma entry_stays s1 G1 s2 G2 l n key : Inv s1 G1 -> is_lazy s1 l n -> le s1 G1 s2 G2 ->
    dget key (entries s1 l) <> None -> dget key (entries s2 l) <> None.
  Proof.
    intros HI Hlz HL Hk. assert (Hu : unpatterned view n) by (apply used_unpatterned, (inv_used _ _ HI l), Hlz).
    pose proof (le_lazy _ _ _ _ HL _ _ Hlz) as (x2 & Hx2 & Hn2).
    destruct (inv_zero _ _ HI l n Hlz) as (x & j & dj & Hx & _ & Hdj & HF).
    destruct Hlz as (x0 & Hx0 & Hn). rewrite Hx in Hx0. injection Hx0 as <-.
    assert (Hrj : reached s1 G1 l j) by (exists x, j, dj; auto).
    apply (le_reach _ _ _ _ HL) in Hrj as (y & j2 & d2 & Hy & Hj2 & Hd2 & HF2). rewrite Hx2 in Hy. injection Hy as <-.
    rewrite Hn in Hdj. rewrite Hn2 in Hd2. pose proof (stage_ext view strx E voc Hwf Hvoc n j j2 _ _ Hu Hj2 Hdj Hd2) as Hext.
    unfold entries in *. rewrite Hx in Hk. rewrite Hx2.
    pose proof (Forall2_dget _ _ _ key (corr_fst s1 G1) HF) as Hg1. pose proof (Forall2_dget _ _ _ key (corr_fst s2 G2) HF2) as Hg2.
    destruct (dget key (l_data x)) as [e|]; [|contradiction]. destruct (dget key dj) as [o|] eqn:Ho; [|contradiction].
    rewrite (ext_get _ _ _ _ Hext Ho) in Hg2. destruct (dget key (l_data x2)); [discriminate|contradiction].
  Qed.
  Lemma stage_tabled n w items j d : used n -> view n = Ok w -> nv_val w = NObj items -> stage n j = Ok d -> tabled view strx E items d.
  Proof.
    intros Hu Hw Hv Hd. destruct j as [|j]; [injection Hd as <-; intros k o; discriminate|].
    unfold ThreadFacts.stage in Hd. rewrite Hw in Hd. cbn [bind] in Hd. rewrite Hv in Hd.
    assert (Hnpw : forall items, nv_val w = NObj items -> dmem (kw_key KwPatternProperties) items = false).
    { intros it Hit. exact (Hnp n w it Hu Hw Hit). }
    destruct (run_ext view strx E Hwf w Hnpw (firstn (S j) voc) [] d (firstn_voc voc Hvoc (S j)) (fits_nil view strx E w Hnpw) Hd) as [Hf _].
    unfold fits in Hf. rewrite Hv in Hf. exact Hf.
  Qed.

  Lemma safe_apply r kw items l k n w i d s G :
    In kw validator_vocabulary -> dmem (kw_key kw) items = true ->
    used n -> view n = Ok w -> nv_val w = NObj items ->
    Inv s G -> is_lazy s l n -> reached s G l i -> stage n i = Ok d ->
    (forall d', apply view strx E kw items d = Ok d' -> stage n (S i) = Ok d') ->
    (forall s' G' d', Inv s' G' -> le s G s' G' -> apply view strx E kw items d = Ok d' -> reached s' G' l (S i) ->
       safe r (k (Ok tt)) s' G') ->
    (forall s' G', Inv s' G' -> le s G s' G' -> (forall d', apply view strx E kw items d <> Ok d') ->
       safe r (k (said (apply view strx E kw items d))) s' G') ->
    safe r (apply_prog view strx E kw items l k) s G.
  Proof.
    intros Hin Hact Hu Hw Hv HI Hlz Hre Hd Hnext Hgood Hbad.
    assert (Hkw : kw <> KwPatternProperties).
    { intros ->. pose proof (Hnp n w items Hu Hw Hv) as Hf. change (u "patternProperties") with (kw_key KwPatternProperties) in Hf. congruence. }
    assert (Htab : tabled view strx E items d) by (eapply stage_tabled; eassumption).
    pose proof (apply_puts view strx E Hwf kw items d Hin Hkw Htab) as Hap.
    destruct (akw_eq_dec kw KwProperties) as [->|Hne].
    - (* properties *)
      unfold puts in Hap. unfold apply_prog.
      remember (w0 <- opnd view items (kw_key KwProperties) ;; as_obj w0) as ro eqn:Hro. symmetry in Hro.
      destruct ro as [m|e|]; cbn [bind] in Hap.
      + assert (Hnd : NoDup (dkeys m)) by (eapply opnd_obj_nodup; eassumption).
        assert (Hmu : forall k c, In (k, c) m -> used c).
        { intros k0 c Hc. apply bind_Ok in Hro as (w0 & Hw0 & Hro). unfold opnd in Hw0.
          destruct (dget (kw_key KwProperties) items) as [pn|] eqn:Hpn; [|discriminate].
          unfold as_obj in Hro. destruct (nv_val w0) as [| | | | |m'] eqn:Hv0; try discriminate. injection Hro as ->.
          eapply used_prop; eassumption. }
        assert (Hd' := Hnext _ Hap).
        change (kw_key KwProperties) with (u "properties") in *.
        (* with the object to use in hand *)
        assert (Hfin : forall o s1 G1, Inv s1 G1 -> le s G s1 G1 -> nth_error G1 o = Some m ->
          safe r (fill (PutProp o) m (PutEntry l (u "properties") (EObj o) (k (Ok tt)))) s1 G1).
        { intros o s1 G1 HI1 HL1 Hm. 
          refine (safe_fill r o m _ (length m) 0 s1 G1 _ HI1 Hm _ _); [lia|lia|].
          intros s2 G2 HI2 HL2 Hfull. apply safe_op. intros s3 G3 HI3 HL3. simpl.
          assert (HL : le s G s3 G3) by (eapply le_trans; [exact HL1|]; eapply le_trans; eassumption).
          assert (HL13 : le s1 G1 s3 G3) by (eapply le_trans; eassumption).
          destruct (put_entry s3 G3 l n i (S i) (u "properties") (EObj o) d (props_only m) HI3
                      (le_lazy _ _ _ _ HL _ _ Hlz) (le_reach _ _ _ _ HL _ _ Hre) (Nat.le_succ_diag_r i) Hd Hd') as (HI4 & HL4 & Hre4).
          { split; [reflexivity|]. simpl. exists m. split; [apply (le_ghost _ _ _ _ HL13); exact Hm|]. split; [reflexivity|].
            pose proof (le_props _ _ _ _ HL3 o). lia. }
          exists G3. split; [exact HI4|]. split; [exact HL4|].
          eapply Hgood; [exact HI4| |exact Hap|exact Hre4]. eapply le_trans; eassumption. }
        (* the table's entry under this name *)
        assert (Hent : forall s1 G1, Inv s1 G1 -> le s G s1 G1 ->
          match dget (u "properties") (entries s1 l) with
          | Some (EObj o) => nth_error G1 o = Some m
          | Some (ELeaf _) => False
          | None => True
          end).
        { intros s1 G1 HI1 HL1.
          destruct (entry_reached s1 G1 l n i d HI1 (le_lazy _ _ _ _ HL1 _ _ Hlz) (le_reach _ _ _ _ HL1 _ _ Hre) Hd)
            as (j & dj & Hij & Hdj & HF).
          pose proof (Forall2_dget _ _ _ (u "properties") (corr_fst s1 G1) HF) as Hg.
          destruct (dget (u "properties") (entries s1 l)) as [e|]; [|exact I].
          destruct (dget (u "properties") dj) as [o'|] eqn:Ho'; [|contradiction].
          pose proof (stage_tabled n w items j dj Hu Hw Hv Hdj _ _ Ho') as (kw & Hk & Hpu).
          change (u "properties") with (kw_key KwProperties) in Hk. apply kw_key_inj in Hk. subst kw.
          unfold puts in Hpu. change (kw_key KwProperties) with (u "properties") in Hpu. rewrite Hro in Hpu. injection Hpu as <-.
          destruct Hg as [_ Hg]. simpl in Hg. destruct e as [o|o].
          - destruct Hg as [[Hleaf _] Hg]. subst o. exact Hleaf.
          - destruct Hg as (m' & Hm' & Hpo & _). injection Hpo as ->. exact Hm'. }
        apply safe_get; [exact HI|reflexivity|]. intros s1 G1 HI1 HL1. simpl.
        pose proof (Hent s1 G1 HI1 HL1) as He1.
        destruct (dget (u "properties") (entries s1 l)) as [e1|] eqn:Hg1.
        * apply safe_get; [exact HI1|reflexivity|]. intros s2 G2 HI2 HL2. simpl.
          assert (HL02 : le s G s2 G2) by (eapply le_trans; eassumption).
          pose proof (Hent s2 G2 HI2 HL02) as He2.
          assert (Hst : dget (u "properties") (entries s2 l) <> None).
          { apply (entry_stays s1 G1 s2 G2 l n _ HI1 (le_lazy _ _ _ _ HL1 _ _ Hlz) HL2). congruence. }
          destruct (dget (u "properties") (entries s2 l)) as [[o|o]|]; [contradiction| |congruence].
          apply Hfin; assumption.
        * apply safe_op. intros s2 G2 HI2 HL2. simpl.
          destruct (new_obj s2 G2 m HI2 Hnd Hmu) as (HI3 & HL3 & Hm3).
          exists (G2 ++ [m]). split; [exact HI3|]. split; [exact HL3|].
          apply Hfin; [exact HI3| |exact Hm3]. eapply le_trans; [exact HL1|]. eapply le_trans; eassumption.
      + specialize (Hbad s G HI (le_refl _ _)). rewrite Hap in Hbad. apply Hbad. discriminate.
      + specialize (Hbad s G HI (le_refl _ _)). rewrite Hap in Hbad. apply Hbad. discriminate.
    - assert (Heq : apply_prog view strx E kw items l k =
        match apply view strx E kw items [] with
        | Ok [] => k (Ok tt)
        | Ok ((key, o) :: _) => PutEntry l key (ELeaf o) (k (Ok tt))
        | Raise e => k (Raise e)
        | OutOfFuel => k OutOfFuel
        end) by (destruct kw; try reflexivity; congruence).
      rewrite Heq. clear Heq.
      destruct (leaf_apply view strx E kw items d (conj Hin (conj Hne Hkw))) as [(e & H0 & H1)|[[H0 H1]|[[H0 H1]|(o & H0 & H1 & Hl)]]]; rewrite H0.
      + specialize (Hbad s G HI (le_refl _ _)). rewrite H1 in Hbad. apply Hbad. discriminate.
      + specialize (Hbad s G HI (le_refl _ _)). rewrite H1 in Hbad. apply Hbad. discriminate.
      + eapply Hgood; [exact HI|apply le_refl|exact H1|].
        destruct Hre as (x & j & dj & Hx & Hij & Hdj & HF).
        destruct Hlz as (x0 & Hx0 & Hn). rewrite Hx in Hx0. injection Hx0 as <-. rewrite Hn in Hdj.
        destruct (Nat.eq_dec i j) as [<-|Hne'].
        * rewrite Hd in Hdj. injection Hdj as <-. exists x, (S i), d. rewrite Hn. repeat split; auto.
        * exists x, j, dj. rewrite Hn. repeat split; auto. lia.
      + apply safe_op. intros s1 G1 HI1 HL1. simpl.
        destruct (put_entry s1 G1 l n i (S i) (kw_key kw) (ELeaf o) d o HI1
                    (le_lazy _ _ _ _ HL1 _ _ Hlz) (le_reach _ _ _ _ HL1 _ _ Hre) (Nat.le_succ_diag_r i) Hd (Hnext _ H1)) as (HI2 & HL2 & Hre2).
        { split; [reflexivity|]. simpl. split; [exact Hl|reflexivity]. }
        exists G1. split; [exact HI2|]. split; [exact HL2|].
        eapply Hgood; [exact HI2| |exact H1|exact Hre2]. eapply le_trans; eassumption.
  Qed.

  Definition not_bool (w : nview node) : Prop := match nv_val w with NBool _ => False | _ => True end.
  Lemma stage_run n w i : view n = Ok w -> not_bool w -> stage n i = run_kws view strx E w (firstn i voc) [].
  Proof.
    intros Hw Hb. destruct i as [|i]; [reflexivity|]. unfold ThreadFacts.stage. rewrite Hw. cbn [bind].
    unfold not_bool in Hb. destruct (nv_val w); try reflexivity. contradiction.
  Qed.
  Lemma reached_whole s G l n w : is_lazy s l n -> view n = Ok w -> not_bool w -> reached s G l (length voc) -> reached s G l whole.
  Proof.
    intros (x & Hx & Hn) Hw Hb (y & j & d & Hy & Hj & Hd & HF). rewrite Hx in Hy. injection Hy as <-.
    exists x, (S j), d. split; [exact Hx|]. split; [unfold ThreadFacts.whole; lia|]. split; [|exact HF].
    rewrite Hn in Hd |- *. rewrite (stage_run n w j Hw Hb), firstn_all2 in Hd by lia.
    rewrite (stage_run n w (S j) Hw Hb), firstn_all2 by lia. exact Hd.
  Qed.
  Lemma safe_load_kws r l k n w kws i d s G :
    kws = skipn i voc -> i + length kws = length voc -> used n -> view n = Ok w -> not_bool w ->
    Inv s G -> is_lazy s l n -> reached s G l i -> stage n i = Ok d ->
    (forall s' G', Inv s' G' -> le s G s' G' -> (exists d', run_kws view strx E w kws d = Ok d') -> reached s' G' l whole ->
       safe r (k (Ok tt)) s' G') ->
    (forall s' G', Inv s' G' -> le s G s' G' -> (forall d', run_kws view strx E w kws d <> Ok d') ->
       safe r (k (said (run_kws view strx E w kws d))) s' G') ->
    safe r (load_prog view strx E w kws l k) s G.
  Proof.
    intros Hkws Hlen Hu Hw Hb. revert i d s G Hkws Hlen.
    induction kws as [|kw kws IH]; intros i d s G Hkws Hlen HI Hlz Hre Hd Hgood Hbad; simpl load_prog.
    - apply Hgood; [exact HI|apply le_refl|exists d; reflexivity|].
      simpl in Hlen. rewrite Nat.add_0_r in Hlen. rewrite Hlen in Hre. eapply reached_whole; eassumption.
    - assert (Hnth : nth_error voc i = Some kw).
      { rewrite skipn_nth in Hkws. destruct (nth_error voc i) as [x|]; [injection Hkws as -> _; reflexivity|discriminate]. }
      assert (Hrest : kws = skipn (S i) voc).
      { rewrite skipn_nth, Hnth in Hkws. injection Hkws as H. exact H. }
      assert (Hin : In kw validator_vocabulary) by (apply Hvoc, nth_error_In with i; exact Hnth).
      assert (Hfst : firstn (S i) voc = firstn i voc ++ [kw]).
      { clear -Hnth. revert Hnth. generalize voc as l0. induction i as [|i IHi]; intros [|y l0] H; simpl in *; try discriminate; [injection H as ->; reflexivity|]. f_equal. apply IHi; exact H. }
      assert (Hsn : forall d', step_kw view strx E w kw d = Ok d' -> stage n (S i) = Ok d').
      { intros d' Hs. rewrite (stage_run n w _ Hw Hb), Hfst, run_app, <- (stage_run n w _ Hw Hb), Hd. cbn [bind run_kws]. rewrite Hs. reflexivity. }
      simpl in Hlen.
      destruct (can_apply view w (kw_key kw)) as [b|e|] eqn:Hca.
      + assert (Hskip : b = false -> reached s G l (S i)).
        { intros ->. assert (Hs : step_kw view strx E w kw d = Ok d) by (unfold step_kw; rewrite Hca; reflexivity).
          destruct Hre as (x & j & dj & Hx & Hij & Hdj & HF). destruct Hlz as (x0 & Hx0 & Hn). rewrite Hx in Hx0. injection Hx0 as <-.
          rewrite Hn in Hdj. destruct (Nat.eq_dec i j) as [<-|Hne'].
          * rewrite Hd in Hdj. injection Hdj as <-. exists x, (S i), d. rewrite Hn. repeat split; auto.
          * exists x, j, dj. rewrite Hn. repeat split; auto. lia. }
        destruct b.
        * destruct (nv_val w) as [| | | | |items] eqn:Hv;
            try (specialize (Hbad s G HI (le_refl _ _)); unfold run_kws at 1 2, step_kw in Hbad; rewrite Hca, Hv in Hbad; apply Hbad; discriminate).
          assert (Hstep : step_kw view strx E w kw d = apply view strx E kw items d).
          { unfold step_kw. rewrite Hca, Hv. reflexivity. }
          eapply safe_apply with (n := n) (w := w) (i := i) (d := d); try eassumption.
          -- unfold can_apply in Hca. rewrite Hv in Hca. congruence.
          -- intros d' Hd'. apply Hsn. rewrite Hstep. exact Hd'.
          -- intros s1 G1 d' HI1 HL1 Hd' Hre1. simpl.
             assert (Hrun : run_kws view strx E w (kw :: kws) d = run_kws view strx E w kws d').
             { simpl. rewrite Hstep, Hd'. reflexivity. }
             apply (IH (S i) d'); [exact Hrest|lia|exact HI1|exact (le_lazy _ _ _ _ HL1 _ _ Hlz)|exact Hre1|apply Hsn; rewrite Hstep; exact Hd'| |].
             ++ intros s2 G2 HI2 HL2 Hex Hwh. apply Hgood; [exact HI2|eapply le_trans; eassumption|rewrite Hrun; exact Hex|exact Hwh].
             ++ intros s2 G2 HI2 HL2 Hex. rewrite <- Hrun. apply Hbad; [exact HI2|eapply le_trans; eassumption|rewrite Hrun; exact Hex].
          -- intros s1 G1 HI1 HL1 Hno. specialize (Hbad s1 G1 HI1 HL1).
             simpl in Hbad. rewrite Hstep in Hbad.
             destruct (apply view strx E kw items d) as [d'|e|]; [destruct (Hno d'); reflexivity| |]; apply Hbad; discriminate.
        * assert (Hs : step_kw view strx E w kw d = Ok d) by (unfold step_kw; rewrite Hca; reflexivity).
          assert (Hrun : run_kws view strx E w (kw :: kws) d = run_kws view strx E w kws d) by (simpl; rewrite Hs; reflexivity).
          apply (IH (S i) d); [exact Hrest|lia|exact HI|exact Hlz|apply Hskip; reflexivity|apply Hsn; exact Hs| |].
          -- intros s2 G2 HI2 HL2 Hex Hwh. apply Hgood; [exact HI2|exact HL2|rewrite Hrun; exact Hex|exact Hwh].
          -- intros s2 G2 HI2 HL2 Hex. rewrite <- Hrun. apply Hbad; [exact HI2|exact HL2|rewrite Hrun; exact Hex].
      + specialize (Hbad s G HI (le_refl _ _)). simpl in Hbad. unfold step_kw in Hbad. rewrite Hca in Hbad. apply Hbad. discriminate.
      + specialize (Hbad s G HI (le_refl _ _)). simpl in Hbad. unfold step_kw in Hbad. rewrite Hca in Hbad. apply Hbad. discriminate.
  Qed.
  Lemma safe_load r l k n s G :
    Inv s G -> is_lazy s l n ->
    (forall s' G', Inv s' G' -> le s G s' G' -> (exists d, compile view strx E voc n = Ok d) -> reached s' G' l whole ->
       safe r (k (Ok tt)) s' G') ->
    (forall s' G', Inv s' G' -> le s G s' G' -> (forall d, compile view strx E voc n <> Ok d) ->
       safe r (k (said (compile view strx E voc n))) s' G') ->
    safe r (load_lazy_prog view strx E voc l k) s G.
  Proof.
    intros HI Hlz Hgood Hbad. unfold load_lazy_prog. apply safe_get; [exact HI|reflexivity|].
    intros s1 G1 HI1 HL1. simpl. pose proof (le_lazy _ _ _ _ HL1 _ _ Hlz) as Hlz1.
    destruct Hlz1 as (x & Hx & Hn). rewrite Hx, Hn.
    assert (Hlz1 : is_lazy s1 l n) by (exists x; auto).
    assert (Hu : used n) by (apply (inv_used _ _ HI1 l); exact Hlz1).
    pose proof (inv_zero _ _ HI1 l n Hlz1) as Hz.
    unfold compile in *. destruct (view n) as [w|e|] eqn:Hw; cbn [bind] in *.
    2:{ apply (Hbad s1 G1 HI1 HL1). discriminate. }
    2:{ apply (Hbad s1 G1 HI1 HL1). discriminate. }
    assert (Hload : not_bool w -> 
      (forall s' G', Inv s' G' -> le s G s' G' -> (exists d, run_kws view strx E w voc [] = Ok d) -> reached s' G' l whole -> safe r (k (Ok tt)) s' G') ->
      (forall s' G', Inv s' G' -> le s G s' G' -> (forall d, run_kws view strx E w voc [] <> Ok d) -> safe r (k (said (run_kws view strx E w voc []))) s' G') ->
      safe r (load_prog view strx E w voc l k) s1 G1).
    { intros Hb Hg Hbd. eapply safe_load_kws with (n := n) (i := 0) (d := []); try eassumption; try reflexivity.
      - intros s2 G2 HI2 HL2. apply Hg; [exact HI2|eapply le_trans; eassumption].
      - intros s2 G2 HI2 HL2. apply Hbd; [exact HI2|eapply le_trans; eassumption]. }
    unfold not_bool in Hload.
    destruct (nv_val w) as [|[|]| | | |items] eqn:Hv; try (apply Hload; [exact I|exact Hgood|exact Hbad]).
    - apply Hgood; [exact HI1|exact HL1|eauto|].
      destruct Hz as (y & j & d & Hy & _ & Hd & HF). rewrite Hx in Hy. injection Hy as <-.
      exists x, whole, []. rewrite Hn. split; [exact Hx|]. split; [lia|].
      assert (Hst : forall j, stage n j = Ok []).
      { intros [|j']; [reflexivity|]. unfold ThreadFacts.stage. rewrite Hw. cbn [bind]. rewrite Hv. reflexivity. }
      split; [apply Hst|]. rewrite Hn, Hst in Hd. injection Hd as <-. exact HF.
    - apply safe_op. intros s2 G2 HI2 HL2. simpl.
      assert (Hd' : stage n whole = Ok (dset (u "_") VFail [])).
      { unfold ThreadFacts.stage, ThreadFacts.whole. rewrite Hw. cbn [bind]. rewrite Hv. reflexivity. }
      destruct (put_entry s2 G2 l n 0 whole (u "_") (ELeaf VFail) [] VFail HI2
                  (le_lazy _ _ _ _ HL2 _ _ Hlz1) (le_reach _ _ _ _ HL2 _ _ Hz) (Nat.le_0_l _) eq_refl Hd') as (HI3 & HL3 & Hre3).
      { split; [reflexivity|]. simpl. split; [split; [exact I|intros ? ? ? ? ? ?; reflexivity]|reflexivity]. }
      exists G2. split; [exact HI3|]. split; [exact HL3|].
      apply Hgood; [exact HI3| |eauto|exact Hre3]. eapply le_trans; [exact HL1|]. eapply le_trans; eassumption.
  Qed.

  Lemma prop_lookup s G o m key : Inv s G -> nth_error G o = Some m -> length m <= length (props s o) ->
    match dget key (props s o), dget key m with
    | Some l, Some c => is_lazy s l c
    | None, None => True
    | _, _ => False
    end.
  Proof.
    intros HI Hm Hfull.
    assert (Hox : exists x, obj_at s o = Some x).
    { unfold obj_at. destruct (nth_error (w_objs s) o) as [x|] eqn:Hx; [eauto|]. apply nth_error_None in Hx.
      assert (o < length G) by (apply nth_error_Some; congruence). rewrite (inv_ghost _ _ HI) in *. lia. }
    destruct Hox as [x Hx]. destruct (inv_objs _ _ HI o m x Hm Hx) as (Hnd & _ & _ & (j & Hj) & Hch).
    unfold props in *. rewrite Hx in *.
    assert (Hk : dkeys (o_props x) = dkeys m).
    { rewrite Hj. apply firstn_all2.
      assert (Hlen : length (dkeys (o_props x)) = length (o_props x)) by apply map_length.
      rewrite Hj, firstn_length in Hlen. assert (Hlm : length (dkeys m) = length m) by apply map_length. lia. }
    destruct (dget key (o_props x)) as [l|] eqn:Hg.
    - destruct (Hch key l Hg) as (c & -> & Hc). exact Hc.
    - destruct (dget key m) as [c|] eqn:Hgm; [|exact I]. apply dget_None in Hg. apply Hg. rewrite Hk.
      apply dget_In in Hgm. apply (in_map fst) in Hgm. exact Hgm.
  Qed.

  Section Loop.
    Variable f : nat.
    Variable r : res unit.
    Variable rec : lid -> pv -> ctx -> (res unit -> prog) -> prog.
    Hypothesis Hrec : forall l n v c k s G, Inv s G -> is_lazy s l n ->
      (forall s' G', Inv s' G' -> le s G s' G' -> safe r (k (validate view strx E voc f n v c)) s' G') ->
      safe r (rec l v c k) s G.

    Lemma safe_members o m d c k s G :
      Inv s G -> nth_error G o = Some m -> length m <= length (props s o) ->
      (forall s' G', Inv s' G' -> le s G s' G' ->
         safe r (k (for_each (member_validate E (validate view strx E voc f) (ObjV m None None false None) c) d)) s' G') ->
      safe r (members_prog E rec o d c k) s G.
    Proof.
      revert s G; induction d as [|[key x] d IH]; intros s G HI Hm Hfull Hk.
      - apply (Hk s G HI (le_refl _ _)).
      - cbn [members_prog]. apply safe_get; [exact HI|reflexivity|]. intros s1 G1 HI1 HL1. cbn [step snd].
        assert (Hm1 := le_ghost _ _ _ _ HL1 _ _ Hm).
        assert (Hf1 : length m <= length (props s1 o)) by (pose proof (le_props _ _ _ _ HL1 o); lia).
        pose proof (prop_lookup s1 G1 o m key HI1 Hm1 Hf1) as Hg1.
        destruct (dget key (props s1 o)) as [l1|].
        + apply safe_get; [exact HI1|reflexivity|]. intros s2 G2 HI2 HL2. cbn [step snd].
          assert (HL : le s G s2 G2) by (eapply le_trans; eassumption).
          assert (Hm2 := le_ghost _ _ _ _ HL _ _ Hm).
          assert (Hf2 : length m <= length (props s2 o)) by (pose proof (le_props _ _ _ _ HL o); lia).
          pose proof (prop_lookup s2 G2 o m key HI2 Hm2 Hf2) as Hg2.
          destruct (dget key m) as [n|] eqn:Hgm; [|contradiction].
          destruct (dget key (props s2 o)) as [l2|]; [|contradiction].
          apply (Hrec l2 n); [exact HI2|exact Hg2|]. intros s3 G3 HI3 HL3.
          assert (HL03 : le s G s3 G3) by (eapply le_trans; eassumption).
          cbn [for_each] in Hk. unfold member_validate at 1 in Hk. cbn [ov_names ov_data] in Hk. rewrite Hgm in Hk. cbn [bind] in Hk.
          destruct (validate view strx E voc f n x (ctx_add c key)) as [[]|e|]; cbn [andthen].
          * apply IH; [exact HI3|exact (le_ghost _ _ _ _ HL03 _ _ Hm)|pose proof (le_props _ _ _ _ HL03 o); lia|].
            intros s4 G4 HI4 HL4. apply Hk; [exact HI4|]. eapply le_trans; eassumption.
          * apply Hk; [exact HI3|exact HL03].
          * apply Hk; [exact HI3|exact HL03].
        + apply safe_get; [exact HI1|reflexivity|]. intros s2 G2 HI2 HL2. cbn [step snd].
          assert (HL : le s G s2 G2) by (eapply le_trans; eassumption).
          assert (Hm2 := le_ghost _ _ _ _ HL _ _ Hm).
          assert (Hnopat : match obj_at s2 o with Some x0 => o_pats x0 | None => None end = None).
          { destruct (obj_at s2 o) as [y|] eqn:Hy; [|reflexivity]. exact (proj1 (proj2 (proj2 (inv_objs _ _ HI2 o m y Hm2 Hy)))). }
          rewrite Hnopat. destruct (dget key m) as [n|] eqn:Hgm; [contradiction|].
          apply IH; [exact HI2|exact Hm2|pose proof (le_props _ _ _ _ HL o); lia|].
          intros s3 G3 HI3 HL3. cbn [for_each] in Hk. unfold member_validate at 1 in Hk.
          cbn [ov_names ov_data ov_pat ov_addl ov_uneval] in Hk. rewrite Hgm in Hk. cbn [bind] in Hk.
          apply Hk; [exact HI3|]. eapply le_trans; eassumption.
    Qed.

    Lemma safe_entry e o v c k s G key :
      Inv s G -> corr s G (key, e) (key, o) ->
      (forall s' G', Inv s' G' -> le s G s' G' -> safe r (k (run_vobj view E (validate view strx E voc f) f o v c)) s' G') ->
      safe r (entry_prog view E rec e v c k) s G.
    Proof.
      intros HI [_ Hc] Hk. simpl in Hc. destruct e as [o'|o']; cbn [entry_prog].
      - destruct Hc as [[_ Hl] ->]. rewrite (Hl _ (validate view strx E voc f) 0 f). apply Hk; [exact HI|apply le_refl].
      - destruct Hc as (m & Hm & -> & Hfull).
        assert (Ho : run_vobj view E (validate view strx E voc f) f (props_only m) v c =
          match v with VDict d => for_each (member_validate E (validate view strx E voc f) (ObjV m None None false None) c) d | _ => Ok tt end).
        { destruct v; reflexivity. }
        rewrite Ho in Hk. destruct v; try (apply Hk; [exact HI|apply le_refl]).
        eapply safe_members; eassumption.
    Qed.

    Lemma safe_entries rem i l n d v c k s G :
      compile view strx E voc n = Ok d -> length d = rem + i ->
      Inv s G -> is_lazy s l n -> reached s G l whole ->
      (forall s' G', Inv s' G' -> le s G s' G' ->
         safe r (k (for_each (fun kv => run_vobj view E (validate view strx E voc f) f (snd kv) v c) (skipn i d))) s' G') ->
      safe r (entries_prog view E rec rem i l (length d) v c k) s G.
    Proof.
      intro Hd. revert i s G; induction rem as [|rem IH]; intros i s G Hlen HI Hlz Hre Hk.
      all: cbn [entries_prog]; apply safe_get; [exact HI|reflexivity|]; intros s1 G1 HI1 HL1; cbn [step snd].
      all: assert (Hlz1 := le_lazy _ _ _ _ HL1 _ _ Hlz); assert (Hre1 := le_reach _ _ _ _ HL1 _ _ Hre).
      all: assert (Hu : unpatterned view n) by (apply used_unpatterned, (inv_used _ _ HI1 l), Hlz1).
      all: assert (HF : Forall2 (corr s1 G1) (entries s1 l) d).
      { destruct Hlz1 as (x & Hx & Hn). destruct Hre1 as (y & j & dj & Hy & Hj & Hdj & HF). rewrite Hx in Hy. injection Hy as <-.
        unfold entries. rewrite Hx. rewrite Hn in Hdj. rewrite <- (stage_whole view strx E voc n) in Hd.
        assert (d = dj) as ->; [|exact HF].
        pose proof (whole_stays n j dj Hj Hdj) as Hw. rewrite Hd in Hw. injection Hw as ->. reflexivity. }
      2:{ destruct Hlz1 as (x & Hx & Hn). destruct Hre1 as (y & j & dj & Hy & Hj & Hdj & HF). rewrite Hx in Hy. injection Hy as <-.
        unfold entries. rewrite Hx. rewrite Hn in Hdj. rewrite <- (stage_whole view strx E voc n) in Hd.
        assert (d = dj) as ->; [|exact HF].
        pose proof (whole_stays n j dj Hj Hdj) as Hw. rewrite Hd in Hw. injection Hw as ->. reflexivity. }
      all: unfold iter_next; rewrite (Forall2_length' _ _ _ HF), Nat.eqb_refl; cbn [negb].
      - rewrite (proj2 (nth_error_None (entries s1 l) i)) by (rewrite (Forall2_length' _ _ _ HF); lia).
        rewrite skipn_nth, (proj2 (nth_error_None d i)) in Hk by lia. apply Hk; assumption.
      - pose proof (Forall2_nth _ _ _ HF i) as Hn. rewrite skipn_nth in Hk.
        destruct (nth_error d i) as [[key o]|] eqn:Hdi; [|apply nth_error_None in Hdi; lia].
        destruct (nth_error (entries s1 l) i) as [[key' e]|]; [|contradiction].
        pose proof (corr_fst _ _ _ _ Hn) as Hkk. simpl in Hkk. subst key'.
        apply safe_entry with (o := o) (key := key); [exact HI1|exact Hn|].
        intros s2 G2 HI2 HL2. assert (HL : le s G s2 G2) by (eapply le_trans; eassumption).
        cbn [for_each snd] in Hk.
        destruct (run_vobj view E (validate view strx E voc f) f o v c) as [[]|e0|]; cbn [andthen bind] in *.
        + apply IH; [lia|exact HI2|exact (le_lazy _ _ _ _ HL _ _ Hlz)|exact (le_reach _ _ _ _ HL _ _ Hre)|].
          intros s3 G3 HI3 HL3. apply Hk; [exact HI3|]. eapply le_trans; eassumption.
        + apply Hk; assumption.
        + apply Hk; assumption.
    Qed.
  End Loop.

  Lemma safe_validate r fuel : forall l n v c k s G, Inv s G -> is_lazy s l n ->
    (forall s' G', Inv s' G' -> le s G s' G' -> safe r (k (validate view strx E voc fuel n v c)) s' G') ->
    safe r (validate_prog view strx E voc fuel l v c k) s G.
  Proof.
    induction fuel as [|f IH]; intros l n v c k s G HI Hlz Hk.
    - apply Hk; [exact HI|apply le_refl].
    - cbn [validate_prog].
      assert (Hgo : forall s1 G1, Inv s1 G1 -> le s G s1 G1 -> reached s1 G1 l whole ->
        safe r (CountEntries l (fun size => entries_prog view E (validate_prog view strx E voc f) size 0 l size v c k)) s1 G1).
      { intros s1 G1 HI1 HL1 Hre1. apply safe_get; [exact HI1|reflexivity|]. intros s2 G2 HI2 HL2. cbn [step snd].
        assert (HL : le s G s2 G2) by (eapply le_trans; eassumption).
        assert (Hlz2 := le_lazy _ _ _ _ HL _ _ Hlz). assert (Hre2 := le_reach _ _ _ _ HL2 _ _ Hre1).
        assert (Hcomp : exists d, compile view strx E voc n = Ok d /\ length (entries s2 l) = length d).
        { destruct Hlz2 as (x & Hx & Hn). destruct Hre2 as (y & j & dj & Hy & Hj & Hdj & HF). rewrite Hx in Hy. injection Hy as <-.
          rewrite Hn in Hdj. exists dj. rewrite <- (stage_whole view strx E voc n). split; [exact (whole_stays n j dj Hj Hdj)|].
          unfold entries. rewrite Hx. exact (Forall2_length' _ _ _ HF). }
        destruct Hcomp as (d & Hd & Hlen). rewrite Hlen.
        eapply safe_entries with (f := f) (n := n) (d := d); try eassumption; [lia|].
        intros s3 G3 HI3 HL3. cbn [validate] in Hk. rewrite Hd in Hk. cbn [bind] in Hk. apply Hk; [exact HI3|]. eapply le_trans; eassumption. }
      apply safe_get; [exact HI|reflexivity|]. intros s1 G1 HI1 HL1. cbn [step snd].
      destruct (le_lazy _ _ _ _ HL1 _ _ Hlz) as (x & Hx & Hn). rewrite Hx. destruct (l_loaded x) eqn:Hld.
      + apply Hgo; [exact HI1|exact HL1|]. apply (inv_loaded _ _ HI1). exists x; auto.
      + apply safe_load with (n := n); [exact HI1|exists x; auto| |].
        * intros s2 G2 HI2 HL2 Hc Hre2. cbn [andthen]. apply safe_op. intros s3 G3 HI3 HL3. cbn [step fst snd].
          assert (HL : le s G s3 G3) by (eapply le_trans; [exact HL1|]; eapply le_trans; eassumption).
          destruct (put_loaded s3 G3 l n HI3 (le_lazy _ _ _ _ HL _ _ Hlz) (le_reach _ _ _ _ HL3 _ _ Hre2)) as [HI4 HL4].
          exists G3. split; [exact HI4|]. split; [exact HL4|]. apply Hgo; [exact HI4|eapply le_trans; eassumption|].
          apply (le_reach _ _ _ _ HL4), (le_reach _ _ _ _ HL3), Hre2.
        * intros s2 G2 HI2 HL2 Hno. specialize (Hk s2 G2 HI2 (le_trans _ _ _ _ _ _ HL1 HL2)). cbn [validate] in Hk.
          destruct (compile view strx E voc n) as [d|e|]; [destruct (Hno d); reflexivity| |]; exact Hk.
  Qed.
  Lemma safe_call fuel v s G : Inv s G -> safe (schema_validate view strx E voc fuel root v) (call view strx E voc root fuel v) s G.
  Proof.
    intro HI. unfold call, schema_validate. destruct (view root) as [w|e|]; cbn [bind]; [|apply safe_done|apply safe_done].
    destruct (nv_val w); try apply safe_done.
    set (use := GetRoot (fun r : option lid => match r with
      | Some l0 => validate_prog view strx E voc fuel l0 v [] Done | None => Done (Raise EAttr) end)).
    assert (Huse : forall s1 G1, Inv s1 G1 -> (exists l, w_root s1 = Some l) -> safe (validate view strx E voc fuel root v []) use s1 G1).
    { intros s1 G1 HI1 [l1 Hl1]. unfold use. apply safe_get; [exact HI1|reflexivity|]. intros s2 G2 HI2 HL2. cbn [step snd].
      destruct (le_root _ _ _ _ HL2 _ Hl1) as [l Hl]. rewrite Hl.
      apply safe_validate with (n := root); [exact HI2|apply (inv_root _ _ HI2); exact Hl|]. intros. apply safe_done. }
    apply safe_get; [exact HI|reflexivity|]. intros s1 G1 HI1 HL1. cbn [step snd].
    destruct (w_root s1) as [l|] eqn:Hr; [apply Huse; [exact HI1|eauto]|].
    apply safe_op. intros s2 G2 HI2 HL2. cbn [step fst snd].
    destruct (new_lazy s2 G2 root HI2 (used_root _ _)) as (HI3 & HL3 & Hlz). exists G2. split; [exact HI3|]. split; [exact HL3|].
    apply safe_op. intros s4 G4 HI4 HL4. cbn [step fst snd].
    destruct (put_root s4 G4 _ HI4 (le_lazy _ _ _ _ HL4 _ _ Hlz)) as [HI5 HL5]. exists G4. split; [exact HI5|]. split; [exact HL5|].
    apply Huse; [exact HI5|]. eexists; reflexivity.
  Qed.

  (** *** All the threads together *)
  Lemma Inv_start : Inv start [].
  Proof.
    constructor; try discriminate; try reflexivity.
    - intros l n (x & Hx & _). unfold lazy_at in Hx. simpl in Hx. destruct l; discriminate.
    - intros l n (x & Hx & _). unfold lazy_at in Hx. simpl in Hx. destruct l; discriminate.
    - intros l (x & Hx & _). unfold lazy_at in Hx. simpl in Hx. destruct l; discriminate.
    - intros [|o] m x H; discriminate.
  Qed.
  Lemma safe_Done r r0 s G : safe r (Done r0) s G -> Inv s G -> r0 = r.
  Proof.
    assert (Hall : forall p s G, safe r p s G -> p = Done r0 -> Inv s G -> r0 = r).
    { clear s G. fix IH 4. intros p s G [s1 G1|p1 s1 G1 H] Hp HI; [injection Hp; auto|]. subst p1.
      destruct (H s1 G1 HI (le_refl _ _)) as (G' & HI' & _ & Hs). exact (IH _ _ _ Hs eq_refl HI'). }
    intro H. exact (Hall _ _ _ H eq_refl).
  Qed.
  Definition all_safe (rs : list (res unit)) (s : world) (G : ghost) (ts : list prog) : Prop :=
    Forall2 (fun r p => safe r p s G) rs ts.
  Lemma all_safe_step rs s G ts i : Inv s G -> all_safe rs s G ts ->
    exists G', Inv (fst (step_thread (s, ts) i)) G' /\ all_safe rs (fst (step_thread (s, ts) i)) G' (snd (step_thread (s, ts) i)).
  Proof.
    intros HI HA. unfold step_thread. destruct (nth_error ts i) as [p|] eqn:Hp; [|exists G; auto].
    assert (Hr : exists r, nth_error rs i = Some r /\ safe r p s G).
    { pose proof (Forall2_nth _ _ _ HA i) as H. rewrite Hp in H. destruct (nth_error rs i); [eauto|contradiction]. }
    destruct Hr as (r & Hr & Hs).
    destruct (step s p) as [s' p'] eqn:Hst. simpl.
    assert (Hgo : exists G', Inv s' G' /\ le s G s' G' /\ safe r p' s' G').
    { inversion Hs as [|? ? ? H]; subst.
      - simpl in Hst. injection Hst as <- <-. exists G. split; [exact HI|]. split; [apply le_refl|apply safe_done].
      - destruct (H s G HI (le_refl _ _)) as (G' & H1 & H2 & H3). rewrite Hst in *. exists G'. auto. }
    destruct Hgo as (G' & HI' & HL & Hs'). exists G'. split; [exact HI'|]. clear Hst Hs HI Hp.
    unfold all_safe in *. revert i Hr. induction HA as [|r0 p0 rs ts H0 HA IH]; intros [|i] Hr; simpl; try discriminate.
    - injection Hr as ->. constructor; [exact Hs'|]. clear -HA HL Hwf Hvoc Hnp. induction HA; constructor; auto. eapply safe_mono; eassumption.
    - constructor; [eapply safe_mono; eassumption|]. apply IH. exact Hr.
  Qed.
  Lemma all_safe_run rs sched s G ts : Inv s G -> all_safe rs s G ts ->
    exists G', Inv (fst (interleave sched (s, ts))) G' /\ all_safe rs (fst (interleave sched (s, ts))) G' (snd (interleave sched (s, ts))).
  Proof.
    revert s G ts; induction sched as [|i sched IH]; intros s G ts HI HA; [exists G; auto|].
    destruct (all_safe_step rs s G ts i HI HA) as (G1 & HI1 & HA1). cbn [interleave fold_left].
    unfold interleave in IH. destruct (step_thread (s, ts) i) as [s1 ts1]. eapply IH; eassumption.
  Qed.

  (** C99, for schemas without [patternProperties]: whatever the number of
      threads, the values and the interleaving, a thread that is done has the
      outcome of the call made alone. *)
  Theorem C99_threads_partial (calls : list (nat * pv)) (sched : list nat) i fuel v r :
    nth_error calls i = Some (fuel, v) ->
    outcome (interleave sched (start, map (fun fv => call view strx E voc root (fst fv) (snd fv)) calls)) i = Some r ->
    r = schema_validate view strx E voc fuel root v.
  Proof.
    intros Hi Ho.
    assert (HA : all_safe (map (fun fv => schema_validate view strx E voc (fst fv) root (snd fv)) calls) start []
                   (map (fun fv => call view strx E voc root (fst fv) (snd fv)) calls)).
    { clear -Hwf Hvoc Hnp. unfold all_safe. induction calls; simpl; constructor; [|assumption]. apply safe_call, Inv_start. }
    destruct (all_safe_run _ sched _ _ _ Inv_start HA) as (G' & HI' & HA'). unfold outcome in Ho.
    pose proof (Forall2_nth _ _ _ HA' i) as Hn. rewrite nth_error_map, Hi in Hn. simpl in Hn.
    destruct (nth_error (snd (interleave sched _)) i) as [p|]; [|discriminate].
    destruct p; try discriminate. injection Ho as ->. eapply safe_Done; eassumption.
  Qed.
End Rely.

(** ** Every call comes to an end *)
Section Finish.
  Context {node : Type}.
  (** the first [n] steps of an endless schedule *)
  Definition steps_of (sched : nat -> nat) (n : nat) : list nat := map sched (seq 0 n).
  (** the schedule gives thread [i] a turn again and again *)
  Definition keeps_going (sched : nat -> nat) (i : nat) : Prop := forall m, exists n, m <= n /\ sched n = i.

  Lemma interleave_S (sched : nat -> nat) n (s : @state node) :
    interleave (steps_of sched (S n)) s = step_thread (interleave (steps_of sched n) s) (sched n).
  Proof. unfold interleave, steps_of. rewrite seq_S, map_app, fold_left_app. reflexivity. Qed.
  Lemma other_thread (s : @state node) i j : i <> j -> nth_error (snd (step_thread s j)) i = nth_error (snd s) i.
  Proof.
    intro Hij. unfold step_thread. destruct s as [w ts]. destruct (nth_error ts j) as [p|]; [|reflexivity].
    destruct (step w p) as [w' p']. simpl. rewrite nth_upd. destruct (Nat.eqb_spec j i); [congruence|reflexivity].
  Qed.
  Lemma own_thread (s : @state node) i p : nth_error (snd s) i = Some p ->
    nth_error (snd (step_thread s i)) i = Some (snd (step (fst s) p)).
  Proof.
    intro H. unfold step_thread. destruct s as [w ts]. simpl in *. rewrite H.
    destruct (step w p) as [w' p']. simpl. rewrite nth_upd, Nat.eqb_refl, H. reflexivity.
  Qed.
  Lemma next_turn sched i (s : @state node) p m : keeps_going sched i ->
    nth_error (snd (interleave (steps_of sched m) s)) i = Some p ->
    exists n w, nth_error (snd (interleave (steps_of sched n) s)) i = Some (snd (step w p)).
  Proof.
    intros Hk. destruct (Hk m) as (n & Hmn & Hn). remember (n - m) as d eqn:Hd.
    revert m Hmn Hd. induction d as [|d IH]; intros m Hmn Hd Hp.
    - assert (m = n) as -> by lia. exists (S n), (fst (interleave (steps_of sched n) s)).
      rewrite interleave_S, Hn. apply own_thread. exact Hp.
    - destruct (Nat.eq_dec (sched m) i) as [He|He].
      + exists (S m), (fst (interleave (steps_of sched m) s)). rewrite interleave_S, He. apply own_thread. exact Hp.
      + apply (IH (S m)); [lia|lia|]. rewrite interleave_S, other_thread by congruence. exact Hp.
  Qed.
  (** No interleaving keeps a call from its end: a thread that gets its turn
      again and again is done at some point, whatever the schema. *)
  Theorem C99_every_call_ends (sched : nat -> nat) (s : @state node) i :
    keeps_going sched i -> i < length (snd s) ->
    exists n r, outcome (interleave (steps_of sched n) s) i = Some r.
  Proof.
    intros Hk Hi.
    assert (Hgo : forall p m, nth_error (snd (interleave (steps_of sched m) s)) i = Some p ->
      exists n r, outcome (interleave (steps_of sched n) s) i = Some r).
    { induction p; intros m Hp; [exists m, r; unfold outcome; rewrite Hp; reflexivity|..];
      destruct (next_turn sched i s _ m Hk Hp) as (n' & w & Hn'); cbn [step snd] in Hn'; eauto. }
    destruct (nth_error (snd s) i) as [p|] eqn:Hp; [apply (Hgo p 0); exact Hp|].
    apply nth_error_None in Hp. lia.
  Qed.
End Finish.

(** ** Non-vacuity *)
Local Open Scope string_scope.
Local Open Scope list_scope.
Local Open Scope nat_scope.
Definition plain_schema : jt :=
  jobj [("properties", jobj [("a", jobj [("type", jstr "string")]);
                             ("b", jobj [("properties", jobj [("c", jobj [("type", jstr "boolean")])])])]);
        ("type", jstr "object")].
Definition use_call (t : jt) (v : pv) := call tview ex_strx ex_env validator_vocabulary t 5 v.
Definition alone (t : jt) (v : pv) : res unit := schema_validate tview ex_strx ex_env validator_vocabulary 5 t v.
Definition right_value : pv := jdict [("a", VStr (u "x")); ("b", jdict [("c", VBool true)])].
Definition wrong_value : pv := jdict [("a", VStr (u "x")); ("b", jdict [("c", VInt 1%Z)])].
(** no schema a call comes to has a member patternProperties *)
Lemma plain_used n : used tview plain_schema n ->
  n = plain_schema \/ n = jobj [("type", jstr "string")] \/ n = jobj [("type", jstr "boolean")] \/
  n = jobj [("properties", jobj [("c", jobj [("type", jstr "boolean")])])].
Proof.
  induction 1 as [|n w items pn pw m k c Hu IH Hw Hv Hp Hpw Hm Hin]; [left; reflexivity|].
  destruct IH as [->|[->|[->| ->]]]; injection Hw as <-; injection Hv as <-; try discriminate Hp;
    injection Hp as <-; injection Hpw as <-; injection Hm as <-; simpl in Hin.
  - destruct Hin as [[= _ <-]|[[= _ <-]|[]]]; auto.
  - destruct Hin as [[= _ <-]|[]]; auto.
Qed.
Lemma plain_no_patterns : no_patterns tview plain_schema.
Proof.
  intros n w items Hu Hw Hv. destruct (plain_used n Hu) as [->|[->|[->| ->]]];
    injection Hw as <-; injection Hv as <-; reflexivity.
Qed.
Definition both (sched : list nat) :=
  let s := interleave sched (start, [use_call plain_schema right_value; use_call plain_schema wrong_value]) in (outcome s 0, outcome s 1).
(** the threads take turns, step by step: both load every validator *)
Example C99_turns : both (flat_map (fun _ => [0; 1]) (seq 0 60)) = (Some (Ok tt), Some (alone plain_schema wrong_value)) /\
  exists e, alone plain_schema wrong_value = Raise (EValid e).
Proof. split; [vm_compute; reflexivity|]. eexists. vm_compute. reflexivity. Qed.
Example C99_not_all_done : both (flat_map (fun _ => [0; 1; 1]) (seq 0 24)) = (None, Some (alone plain_schema wrong_value)).
Proof. vm_compute. reflexivity. Qed.
(** *** The violation *)
Definition pattern_schema : jt := jobj [("patternProperties", jobj [("a", jobj [("type", jstr "string")])])].
Definition bad_value : pv := jdict [("a", VInt 1%Z)].
Definition two_calls : state := (start, [use_call pattern_schema bad_value; use_call pattern_schema bad_value]).
(** A schema with patternProperties: one of two threads that make the same call,
    which fails alone, gets no error; in another interleaving it gets an
    [TypeError]. *)
Theorem C99_threads_refuted :
  (exists e, alone pattern_schema bad_value = Raise (EValid e)) /\
  (exists sched, outcome (interleave sched two_calls) 1 = Some (Ok tt)) /\
  (exists sched, outcome (interleave sched two_calls) 1 = Some (Raise EType)).
Proof.
  split; [|split].
  - eexists. vm_compute. reflexivity.
  - exists (repeat 0 5 ++ repeat 1 16 ++ repeat 0 6 ++ repeat 1 20). vm_compute. reflexivity.
  - exists (repeat 0 7 ++ repeat 1 9 ++ repeat 0 3 ++ repeat 1 20). vm_compute. reflexivity.
Qed.

Print Assumptions C99_threads_partial.
Print Assumptions C99_every_call_ends.
Print Assumptions C99_threads_refuted.
