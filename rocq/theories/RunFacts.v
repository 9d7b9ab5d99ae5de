(** What each validator object accepts, in terms of what its sub-validators
    accept and reject. *)
From Verif Require Import PyBase PyBaseFacts PyVal Errors Validators Keywords Spec LeafFacts Mono.
From Coq Require Import QArith ZifyBool.
Local Open Scope Z_scope.

Section VHolds.
  Context {node C : Type} (view : node -> res (nview node)) (E : env).
  Variables acc rej : C -> pv -> ctx -> Prop.

  Definition matched (o : objv C) (k : pystr) : Prop :=
    exists pats p n, ov_pat o = Some pats /\ In (p, n) pats /\ re_search E p k = true.
  Definition rest_ok (o : objv C) (c : ctx) (k : pystr) (x : pv) : Prop :=
    match ov_addl o with
    | Some SFail => False
    | Some (SLazy n) => acc n x (c ++ [k])
    | None => ov_uneval o = false
    end.
  Definition member_ok (o : objv C) (c : ctx) (k : pystr) (x : pv) : Prop :=
    (forall n, ov_names o = Some n -> acc n (VStr k) (c ++ [k])) /\
    match dget k (ov_data o) with
    | Some n => acc n x (c ++ [k])
    | None =>
        (forall pats, ov_pat o = Some pats ->
           Forall (fun pn => re_ok E (fst pn) = true /\
                     (re_search E (fst pn) k = true -> acc (snd pn) x (c ++ [k]))) pats) /\
        (matched o k \/ rest_ok o c k x)
    end.

  Definition prefix_ok (ps : list C) (vals : list pv) (c : ctx) : Prop :=
    (List.length ps <= List.length vals)%nat /\
    forall i p x, nth_error ps i = Some p -> nth_error vals i = Some x -> acc p x (c ++ [nat_str i]).
  Definition items_ok (n : C) (from : nat) (vals : list pv) (c : ctx) : Prop :=
    forall i x, (from <= i)%nat -> nth_error vals i = Some x -> acc n x (c ++ [nat_str i]).

  Definition vholds (o : vobj node C) (v : pv) (c : ctx) : Prop :=
    match o with
    | VFail => False
    | VType ts => exists t, In t ts /\ has_type v t
    | VEnum l => enum_first_match view l v
    | VConst x => const_validate view x v c = Ok tt
    | VMaximum d ex => exists q, value_is v q /\ (q <= dec_q d)%Q /\ (ex = true -> (q < dec_q d)%Q)
    | VMinimum d ex => exists q, value_is v q /\ (dec_q d <= q)%Q /\ (ex = true -> (dec_q d < q)%Q)
    | VMultipleOf m =>
        exists d, decimal_text E v d /\
          exists z, (dec_q d == inject_Z z * dec_q m)%Q /\ Z.abs z < 10 ^ 28 /\ ~ (dec_q m == 0)%Q
    | VMinLength n | VMinProps n | VMinItems n => exists s, size_is v s /\ n <= s
    | VMaxLength n | VMaxProps n | VMaxItems n => exists s, size_is v s /\ s <= n
    | VFormat f => exists test, fmt E f = Some test /\ test v = Ok true
    | VPattern p => exists s, v = VStr s /\ re_search E p s = true
    | VRequired names => forall name, In name names -> has_name v name
    | VObject o =>
        match v with
        | VDict d => Forall (fun kx => member_ok o c (fst kx) (snd kx)) d
        | _ => True
        end
    | VDepRequired m =>
        match v with
        | VDict d => forall key names, In (key, names) m -> In key (dkeys d) ->
                       forall name, In name names -> In name (dkeys d)
        | _ => True
        end
    | VDepSchemas m =>
        match v with
        | VDict d => Forall (fun kn => In (fst kn) (dkeys d) -> acc (snd kn) v c) m
        | _ => True
        end
    | VArray items prefix =>
        exists vals, v = VList vals /\
          prefix_ok (match prefix with Some ps => ps | None => [] end) vals c /\
          (forall n, items = Some n ->
             items_ok n (List.length (match prefix with Some ps => ps | None => [] end)) vals c)
    | VContains n mn mx =>
        exists elems flags, iterable v elems /\
          Forall2 (fun y (b : bool) => if b then acc n y [] else rej n y []) elems flags /\
          mn <= count_true flags /\
          (forall m, mx = Some m -> m <> 0 -> count_true flags <= m)
    | VUnique =>
        exists elems, iterable v elems /\ (forall y, In y elems -> unstructured y) /\ all_different elems
    | VAllOf l => Forall (fun n => acc n v c) l
    | VAnyOf l => exists l1 n l2, l = l1 ++ n :: l2 /\ Forall (fun m => rej m v c) l1 /\ acc n v c
    | VOneOf l => exists l1 n l2, l = l1 ++ n :: l2 /\ acc n v c /\ Forall (fun m => rej m v c) (l1 ++ l2)
    | VNot n => rej n v c
    | VCond k =>
        forall i, cv_if k = Some i ->
          (acc i v c /\ (forall n, cv_then k = Some n -> acc n v c)) \/
          (rej i v c /\ exists n, cv_else k = Some n /\ acc n v c)
    end.
End VHolds.

(** ** At a fixed recursion budget *)
Section Fixed.
  Context {node C : Type} (view : node -> res (nview node)) (E : env).
  Variable rec : C -> pv -> ctx -> res unit.
  Let A n v c := rec n v c = Ok tt.
  Let R n v c := exists e, rec n v c = Raise (EValid e).

  Lemma pattern_loop_ok pats k x c b b' :
    pattern_loop E rec pats k x c b = Ok b' <->
    Forall (fun pn => re_ok E (fst pn) = true /\
              (re_search E (fst pn) k = true -> A (snd pn) x (c ++ [k]))) pats /\
    b' = (b || existsb (fun pn => re_search E (fst pn) k) pats)%bool.
  Proof.
    revert b; induction pats as [|[p n] pats IH]; intro b; simpl.
    - rewrite orb_false_r. split.
      + intro H; injection H as <-. split; [constructor|reflexivity].
      + intros [_ ->]; reflexivity.
    - destruct (re_ok E p) eqn:Hok.
      + destruct (re_search E p k) eqn:Hs.
        * rewrite bind_Ok. split.
          -- intros ([] & H1 & H2). apply IH in H2 as [H2 ->]. split.
             ++ constructor; [|exact H2]. simpl. split; [exact Hok|intros _; exact H1].
             ++ simpl. rewrite orb_true_r; reflexivity.
          -- intros [H1 ->]. inversion H1 as [|? ? [_ Ha] Hf]; subst. exists tt. split.
             ++ apply Ha; exact Hs.
             ++ apply IH. split; [exact Hf|]. simpl. rewrite orb_true_r; reflexivity.
        * rewrite IH. simpl. split.
          -- intros [H1 ->]. split; [|reflexivity]. constructor; [|exact H1].
             simpl. split; [exact Hok|congruence].
          -- intros [H1 ->]. inversion H1; subst. auto.
      + split; [discriminate|]. intros [H _]. inversion H as [|? ? [H1 _] _]; subst. simpl in H1. congruence.
  Qed.

  Lemma matched_exists (o : objv C) pats k : ov_pat o = Some pats ->
    existsb (fun pn => re_search E (fst pn) k) pats = true <-> matched E o k.
  Proof.
    intro Hp. rewrite existsb_exists. unfold matched. split.
    - intros ([p n] & Hin & Hs). exists pats, p, n. auto.
    - intros (pats' & p & n & Hp' & Hin & Hs). rewrite Hp in Hp'. injection Hp' as <-.
      exists (p, n). auto.
  Qed.

  Lemma rest_ok_iff (o : objv C) c k x :
    match ov_addl o with
    | Some s => run_sub rec s x (ctx_add c k)
    | None => if ov_uneval o then raise_verr KFail (ctx_path (ctx_add c k)) else Ok tt
    end = Ok tt <-> rest_ok A o c k x.
  Proof.
    unfold rest_ok. destruct (ov_addl o) as [[|n]|]; simpl.
    - split; [intro H; exfalso; exact (raise_verr_not_ok _ _ _ H)|contradiction].
    - reflexivity.
    - apply if_raise_ok'.
  Qed.

  Lemma member_validate_ok (o : objv C) c k x :
    member_validate E rec o c (k, x) = Ok tt <-> member_ok E A o c k x.
  Proof.
    unfold member_validate, member_ok. rewrite bind_Ok.
    assert (Hn : (match ov_names o with Some n => rec n (VStr k) (ctx_add c k) | None => Ok tt end = Ok tt)
                 <-> (forall n, ov_names o = Some n -> A n (VStr k) (c ++ [k]))).
    { destruct (ov_names o) as [n|]; split; intro H.
      - intros n' Hn'; injection Hn' as <-; exact H.
      - apply H; reflexivity.
      - intros n' Hn'; discriminate.
      - reflexivity. }
    rewrite <- Hn. clear Hn.
    assert (Hrest :
      match dget k (ov_data o) with
      | Some n => rec n x (ctx_add c k)
      | None =>
          evaluated <- (match ov_pat o with
                        | Some pats => pattern_loop E rec pats k x c false
                        | None => Ok false
                        end) ;;
          if evaluated then Ok tt
          else match ov_addl o with
               | Some s => run_sub rec s x (ctx_add c k)
               | None => if ov_uneval o then raise_verr KFail (ctx_path (ctx_add c k)) else Ok tt
               end
      end = Ok tt <->
      match dget k (ov_data o) with
      | Some n => A n x (c ++ [k])
      | None =>
          (forall pats, ov_pat o = Some pats ->
             Forall (fun pn => re_ok E (fst pn) = true /\
                       (re_search E (fst pn) k = true -> A (snd pn) x (c ++ [k]))) pats) /\
          (matched E o k \/ rest_ok A o c k x)
      end).
    { destruct (dget k (ov_data o)); [reflexivity|].
      rewrite bind_Ok. destruct (ov_pat o) as [pats|] eqn:Hp.
      - split.
        + intros (b & Hb & H). apply pattern_loop_ok in Hb as [Hf ->]. simpl in H. split.
          * intros pats' Hp'; injection Hp' as <-; exact Hf.
          * destruct (existsb _ pats) eqn:Hex.
            -- left. apply (matched_exists o pats); assumption.
            -- right. apply rest_ok_iff; exact H.
        + intros [Hf Hor]. exists (existsb (fun pn => re_search E (fst pn) k) pats). split.
          * apply pattern_loop_ok. split; [apply Hf; reflexivity|reflexivity].
          * destruct (existsb _ pats) eqn:Hex; [reflexivity|]. apply rest_ok_iff.
            destruct Hor as [Hm|Hr]; [|exact Hr].
            exfalso. apply (matched_exists o pats k Hp) in Hm. congruence.
      - split.
        + intros (b & Hb & H). injection Hb as <-. split.
          * intros pats' Hp'; discriminate.
          * right. apply rest_ok_iff; exact H.
        + intros [_ [Hm|Hr]].
          * destruct Hm as (pats & p & n & Hp' & _). congruence.
          * exists false. split; [reflexivity|]. apply rest_ok_iff; exact Hr. }
    split.
    - intros ([] & H1 & H2). split; [exact H1|]. apply Hrest; exact H2.
    - intros [H1 H2]. exists tt. split; [exact H1|]. apply Hrest; exact H2.
  Qed.

  Lemma items_loop_ok n vals i c :
    items_loop rec n vals i c = Ok tt <->
    forall j x, nth_error vals j = Some x -> A n x (c ++ [nat_str (i + j)]).
  Proof.
    revert i; induction vals as [|y vals IH]; intro i; simpl.
    - split; [|reflexivity]. intros _ [|j] x H; discriminate.
    - rewrite bind_Ok. split.
      + intros ([] & H1 & H2) [|j] x Hx; simpl in Hx.
        * injection Hx as <-. rewrite Nat.add_0_r. exact H1.
        * rewrite Nat.add_succ_r. pose proof (proj1 (IH (S i)) H2 j x Hx) as Hg.
          simpl in Hg. exact Hg.
      + intro H. exists tt. split.
        * specialize (H 0%nat y eq_refl). rewrite Nat.add_0_r in H. exact H.
        * apply IH. intros j x Hx. specialize (H (S j) x Hx). rewrite Nat.add_succ_r in H. exact H.
  Qed.
  Lemma items_loop_ok' n vals i c :
    items_loop rec n (skipn i vals) i c = Ok tt <-> items_ok A n i vals c.
  Proof.
    rewrite items_loop_ok. unfold items_ok.
    assert (Hsk : forall j, nth_error (skipn i vals) j = nth_error vals (i + j)).
    { clear. revert vals; induction i as [|i IH]; intros vals j; [reflexivity|].
      destruct vals as [|x vals]; simpl; [destruct j; reflexivity|apply IH]. }
    split; intro H.
    - intros j x Hle Hx. replace j with (i + (j - i))%nat by lia. apply H.
      rewrite Hsk. replace (i + (j - i))%nat with j by lia. exact Hx.
    - intros j x Hx. rewrite Hsk in Hx. apply H; [lia|exact Hx].
  Qed.

  (** a tuple longer than the array never gets past the missing position *)
  Lemma prefix_loop_stuck lf ps vals i c j :
    (i < List.length ps)%nat -> (List.length vals <= i)%nat ->
    prefix_loop rec lf ps vals i c <> Ok j.
  Proof.
    intros Hps Hvals. induction lf as [|lf IH]; simpl; [discriminate|].
    destruct (nth_error ps i) as [p|] eqn:Hp; [|apply nth_error_None in Hp; lia].
    destruct (nth_error vals i) as [x|] eqn:Hx.
    - assert (nth_error vals i <> None) by congruence. apply nth_error_Some in H. lia.
    - intro H. apply bind_Ok in H as ([] & _ & H). exact (IH H).
  Qed.
  Lemma prefix_loop_ok1 lf ps vals i c j :
    (i <= List.length ps)%nat ->
    prefix_loop rec lf ps vals i c = Ok j ->
    j = List.length ps /\ ((i < List.length ps)%nat -> (List.length ps <= List.length vals)%nat) /\
    forall k p x, (i <= k)%nat -> nth_error ps k = Some p -> nth_error vals k = Some x ->
      A p x (c ++ [nat_str k]).
  Proof.
    revert i; induction lf as [|lf IH]; intros i Hle; simpl; [discriminate|].
    destruct (nth_error ps i) as [p|] eqn:Hp.
    - assert (Hi : (i < List.length ps)%nat) by (apply nth_error_Some; congruence).
      destruct (nth_error vals i) as [x|] eqn:Hx; intro H.
      + apply bind_Ok in H as ([] & Ha & H). apply IH in H as (-> & Hl & Hk); [|lia].
        assert (Hiv : (i < List.length vals)%nat) by (apply nth_error_Some; congruence).
        repeat split.
        * intros _. destruct (Nat.eq_dec (S i) (List.length ps)); [lia|]. apply Hl; lia.
        * intros k p' x' Hk' Hp' Hx'. destruct (Nat.eq_dec k i) as [->|Hne].
          -- rewrite Hp in Hp'; injection Hp' as <-. rewrite Hx in Hx'; injection Hx' as <-. exact Ha.
          -- apply Hk; try assumption. lia.
      + apply bind_Ok in H as ([] & _ & H). exfalso.
        apply nth_error_None in Hx. exact (prefix_loop_stuck lf ps vals i c j Hi Hx H).
    - intro H. injection H as <-. apply nth_error_None in Hp.
      repeat split; try lia.
      intros k p' x' Hk' Hp' _.
      assert (k < List.length ps)%nat by (apply nth_error_Some; congruence). lia.
  Qed.
  Lemma prefix_loop_ok2 lf ps vals i c :
    (i <= List.length ps)%nat -> (List.length ps - i < lf)%nat ->
    (List.length ps <= List.length vals)%nat ->
    (forall k p x, (i <= k)%nat -> nth_error ps k = Some p -> nth_error vals k = Some x ->
      A p x (c ++ [nat_str k])) ->
    prefix_loop rec lf ps vals i c = Ok (List.length ps).
  Proof.
    revert i; induction lf as [|lf IH]; intros i Hle Hlf Hl Hk; [lia|]. simpl.
    destruct (nth_error ps i) as [p|] eqn:Hp.
    - assert (Hi : (i < List.length ps)%nat) by (apply nth_error_Some; congruence).
      destruct (nth_error vals i) as [x|] eqn:Hx; [|apply nth_error_None in Hx; lia].
      pose proof (Hk i p x (Nat.le_refl i) Hp Hx) as Ha. unfold A in Ha. unfold ctx_add. rewrite Ha. simpl.
      apply IH; try lia. intros k p' x' Hk'. apply Hk. lia.
    - apply nth_error_None in Hp. f_equal. lia.
  Qed.

  Lemma try_valid_cases m r : try_valid m = Ok r <->
    (r = None /\ m = Ok tt) \/ (exists e, r = Some e /\ m = Raise (EValid e)).
  Proof.
    destruct m as [[]|e|]; simpl.
    - split; intro H.
      + injection H as <-. left; auto.
      + destruct H as [[-> _]|(e & _ & H)]; [reflexivity|discriminate].
    - destruct e; simpl; split; intro H; try discriminate;
        try (destruct H as [[_ H]|(e' & _ & H)]; discriminate).
      + injection H as <-. right; eauto.
      + destruct H as [[_ H]|(e' & -> & H)]; [discriminate|]. injection H as <-. reflexivity.
    - split; [discriminate|]. intros [[_ H]|(e & _ & H)]; discriminate.
  Qed.

  Lemma count_valid_ok n l k :
    count_valid rec n l = Ok k <->
    exists flags, Forall2 (fun y (b : bool) => if b then A n y [] else R n y []) l flags /\
      k = count_true flags.
  Proof.
    revert k; induction l as [|x l IH]; intro k; simpl.
    - split.
      + intro H; injection H as <-. exists []. split; [constructor|reflexivity].
      + intros (flags & Hf & ->). inversion Hf; reflexivity.
    - rewrite bind_Ok. split.
      + intros (r & Hr & H). apply bind_Ok in H as (k' & Hk' & H). injection H as <-.
        apply IH in Hk' as (flags & Hf & ->).
        apply try_valid_cases in Hr as [[-> Hr]|(e & -> & Hr)].
        * exists (true :: flags). split; [constructor; [exact Hr|exact Hf]|reflexivity].
        * exists (false :: flags). split; [constructor; [exists e; exact Hr|exact Hf]|reflexivity].
      + intros (flags & Hf & ->). inversion Hf as [|? b ? flags' Hb Hf']; subst. destruct b.
        * exists None. split; [apply try_valid_cases; auto|].
          apply bind_Ok. exists (count_true flags'). split; [apply IH; eauto|reflexivity].
        * destruct Hb as [e He]. exists (Some e). split; [apply try_valid_cases; eauto|].
          apply bind_Ok. exists (count_true flags'). split; [apply IH; eauto|reflexivity].
  Qed.
  Lemma contains_ok n mn mx v c :
    contains_validate rec n mn mx v c = Ok tt <->
    exists elems flags, iterable v elems /\
      Forall2 (fun y (b : bool) => if b then A n y [] else R n y []) elems flags /\
      mn <= count_true flags /\
      (forall m, mx = Some m -> m <> 0 -> count_true flags <= m).
  Proof.
    unfold contains_validate. rewrite bind_Ok. split.
    - intros (l & Hl & H). apply bind_Ok in H as (k & Hk & H).
      apply count_valid_ok in Hk as (flags & Hf & ->).
      exists l, flags. split; [apply py_iter_ok; exact Hl|]. split; [exact Hf|].
      destruct (Z.ltb_spec (count_true flags) mn) as [Hlt|Hge];
        [exfalso; exact (raise_verr_not_ok _ _ _ H)|].
      split; [lia|]. intros m -> Hm.
      destruct (negb (m =? 0) && (count_true flags >? m))%bool eqn:Hc;
        [exfalso; exact (raise_verr_not_ok _ _ _ H)|]. lia.
    - intros (l & flags & Hl & Hf & H1 & H2). exists l. split; [apply py_iter_ok; exact Hl|].
      apply bind_Ok. exists (count_true flags). split; [apply count_valid_ok; eauto|].
      destruct (Z.ltb_spec (count_true flags) mn) as [Hlt|Hge]; [lia|].
      destruct mx as [m|]; [|reflexivity]. apply if_raise_ok'.
      destruct (Z.eqb_spec m 0); [reflexivity|]. specialize (H2 m eq_refl n0). lia.
  Qed.

  Lemma anyof_ok l v c last :
    anyof_loop rec l v c last = Ok tt <->
    exists l1 n l2, l = l1 ++ n :: l2 /\ Forall (fun m => R m v c) l1 /\ A n v c.
  Proof.
    revert last; induction l as [|x l IH]; intro last; simpl.
    - split; [destruct last; discriminate|]. intros ([|? ?] & n & l2 & H & _); discriminate.
    - rewrite bind_Ok. split.
      + intros (r & Hr & H). apply try_valid_cases in Hr as [[-> Hr]|(e & -> & Hr)].
        * exists [], x, l. auto.
        * apply IH in H as (l1 & n & l2 & -> & H1 & H2). exists (x :: l1), n, l2.
          repeat split; auto. constructor; [exists e; exact Hr|exact H1].
      + intros ([|x' l1] & n & l2 & Hl & H1 & H2); injection Hl as -> ->.
        * exists None. split; [apply try_valid_cases; auto|reflexivity].
        * inversion H1 as [|? ? [e He] H1']; subst. exists (Some e).
          split; [apply try_valid_cases; eauto|]. apply IH. exists l1, n, l2. auto.
  Qed.

  Lemma oneof_ok_gen l v c k last :
    oneof_loop rec l v c k last = Ok tt <->
    (k = 1%nat /\ Forall (fun m => R m v c) l) \/
    (k = 0%nat /\ exists l1 n l2, l = l1 ++ n :: l2 /\ A n v c /\ Forall (fun m => R m v c) (l1 ++ l2)).
  Proof.
    revert k last; induction l as [|x l IH]; intros k last; simpl.
    - destruct k as [|[|k]].
      + split; [destruct last; discriminate|].
        intros [[H _]|[_ ([|? ?] & n & l2 & H & _)]]; discriminate.
      + split; [|reflexivity]. intros _. left. split; [reflexivity|constructor].
      + split; [intro H; exfalso; exact (raise_verr_not_ok _ _ _ H)|].
        intros [[H _]|[H _]]; discriminate.
    - rewrite bind_Ok. split.
      + intros (r & Hr & H). apply try_valid_cases in Hr as [[-> Hr]|(e & -> & Hr)].
        * apply IH in H as [[Hk H]|[Hk _]]; [|discriminate]. injection Hk as ->.
          right. split; [reflexivity|]. exists [], x, l. auto.
        * apply IH in H as [[Hk H]|[Hk (l1 & n & l2 & -> & H1 & H2)]].
          -- left. split; [exact Hk|]. constructor; [exists e; exact Hr|exact H].
          -- right. split; [exact Hk|]. exists (x :: l1), n, l2. repeat split; auto.
             simpl. constructor; [exists e; exact Hr|exact H2].
      + intros [[-> H]|[-> ([|x' l1] & n & l2 & Hl & H1 & H2)]].
        * inversion H as [|? ? [e He] H']; subst. exists (Some e).
          split; [apply try_valid_cases; eauto|]. apply IH. auto.
        * injection Hl as -> ->. exists None. split; [apply try_valid_cases; auto|].
          apply IH. left. auto.
        * injection Hl as -> ->. simpl in H2. inversion H2 as [|? ? [e He] H2']; subst.
          exists (Some e). split; [apply try_valid_cases; eauto|]. apply IH. right.
          split; [reflexivity|]. exists l1, n, l2. auto.
  Qed.
  Lemma oneof_ok l v c :
    oneof_loop rec l v c 0 None = Ok tt <->
    exists l1 n l2, l = l1 ++ n :: l2 /\ A n v c /\ Forall (fun m => R m v c) (l1 ++ l2).
  Proof.
    rewrite oneof_ok_gen. split.
    - intros [[H _]|[_ H]]; [discriminate|exact H].
    - intro H; right; auto.
  Qed.
  Lemma not_ok n v c : not_validate rec n v c = Ok tt <-> R n v c.
  Proof.
    unfold not_validate. rewrite bind_Ok. split.
    - intros (r & Hr & H). apply try_valid_cases in Hr as [[-> Hr]|(e & -> & Hr)].
      + exfalso; exact (raise_verr_not_ok _ _ _ H).
      + exists e; exact Hr.
    - intros [e He]. exists (Some e). split; [apply try_valid_cases; eauto|reflexivity].
  Qed.
  Lemma cond_ok k v c : cond_validate rec k v c = Ok tt <->
    forall i, cv_if k = Some i ->
      (A i v c /\ (forall n, cv_then k = Some n -> A n v c)) \/
      (R i v c /\ exists n, cv_else k = Some n /\ A n v c).
  Proof.
    unfold cond_validate. destruct (cv_if k) as [i|].
    - rewrite bind_Ok. split.
      + intros (r & Hr & H) i' Hi; injection Hi as <-.
        apply try_valid_cases in Hr as [[-> Hr]|(e & -> & Hr)].
        * left. split; [exact Hr|]. intros n Hn. rewrite Hn in H. exact H.
        * right. split; [exists e; exact Hr|].
          destruct (cv_else k) as [n|]; [|discriminate]. eauto.
      + intro H. destruct (H i eq_refl) as [[Hi Ht]|[[e He] (n & Hn & Ha)]].
        * exists None. split; [apply try_valid_cases; auto|].
          destruct (cv_then k) as [n|]; [apply Ht; reflexivity|reflexivity].
        * exists (Some e). split; [apply try_valid_cases; eauto|]. rewrite Hn. exact Ha.
    - split; [intros _ i Hi; discriminate|reflexivity].
  Qed.

  Lemma array_ok1 lf items prefix v c :
    array_validate rec lf items prefix v c = Ok tt -> vholds view E A R (VArray items prefix) v c.
  Proof.
    unfold array_validate, vholds. destruct v as [| | | | | |vals|];
      try (intro H; exfalso; exact (raise_verr_not_ok _ _ _ H)).
    intro H. apply bind_Ok in H as (i & Hi & H). exists vals. split; [reflexivity|].
    assert (Hp : i = List.length (match prefix with Some ps => ps | None => [] end) /\
                 prefix_ok A (match prefix with Some ps => ps | None => [] end) vals c).
    { destruct prefix as [[|p ps]|].
      - injection Hi as <-. split; [reflexivity|]. split; [simpl; lia|]. intros [|j] q x Hq; discriminate.
      - apply prefix_loop_ok1 in Hi as (-> & Hl & Hk); [|lia]. split; [reflexivity|].
        split; [apply Hl; simpl; lia|]. intros j q x. apply Hk; lia.
      - injection Hi as <-. split; [reflexivity|]. split; [simpl; lia|]. intros [|j] q x Hq; discriminate. }
    destruct Hp as [-> Hp]. split; [exact Hp|]. intros n ->.
    apply items_loop_ok'. exact H.
  Qed.
  Lemma array_ok2 lf items prefix v c :
    (List.length (match prefix with Some ps => ps | None => [] end) < lf)%nat ->
    vholds view E A R (VArray items prefix) v c -> array_validate rec lf items prefix v c = Ok tt.
  Proof.
    intros Hlf (vals & -> & [Hl Hk] & Hi). unfold array_validate.
    apply bind_Ok. exists (List.length (match prefix with Some ps => ps | None => [] end)). split.
    - destruct prefix as [[|p ps]|]; try reflexivity.
      apply prefix_loop_ok2; try lia. intros k q x _. apply Hk.
    - destruct items as [n|]; [|reflexivity]. apply items_loop_ok'. apply Hi; reflexivity.
  Qed.

  Lemma run_vobj_sound lf o v c :
    run_vobj view E rec lf o v c = Ok tt -> vholds view E A R o v c.
  Proof.
    destruct o; cbn [run_vobj]; intro H.
    all: try (exfalso; exact (raise_verr_not_ok _ _ _ H)).
    - apply type_validate_ok in H; exact H.
    - apply enum_validate_ok in H; exact H.
    - exact H.
    - apply maximum_validate_ok in H; exact H.
    - apply minimum_validate_ok in H; exact H.
    - apply multiple_of_ok in H; exact H.
    - apply min_len_ok in H; exact H.
    - apply max_len_ok in H; exact H.
    - apply format_ok in H; exact H.
    - apply pattern_ok in H; exact H.
    - exact (proj1 (required_ok _ _ _) H).
    - apply min_len_ok in H; exact H.
    - apply max_len_ok in H; exact H.
    - unfold object_validate in H. destruct v; try exact I. simpl.
      apply for_each_Ok in H. eapply Forall_impl; [|exact H].
      intros [k x] Hx. apply member_validate_ok; exact Hx.
    - exact (proj1 (dep_required_ok _ _ _) H).
    - unfold dep_schemas_validate in H. destruct v; try exact I. simpl.
      apply for_each_Ok in H. eapply Forall_impl; [|exact H].
      intros [k n] Hx Hin. simpl in *. apply dmem_In in Hin. rewrite Hin in Hx. exact Hx.
    - apply array_ok1 in H; exact H.
    - apply contains_ok in H; exact H.
    - apply min_len_ok in H; exact H.
    - apply max_len_ok in H; exact H.
    - apply unique_ok in H; exact H.
    - apply for_each_Ok in H; exact H.
    - apply anyof_ok in H; exact H.
    - apply oneof_ok in H; exact H.
    - apply not_ok in H; exact H.
    - rewrite cond_ok in H; exact H.
  Qed.

  Definition tuple_len (o : vobj node C) : nat :=
    match o with VArray _ (Some ps) => List.length ps | _ => 0%nat end.

  Lemma run_vobj_complete lf o v c : (tuple_len o < lf)%nat ->
    vholds view E A R o v c -> run_vobj view E rec lf o v c = Ok tt.
  Proof.
    intro Hlf. destruct o; cbn [run_vobj]; intro H.
    - contradiction.
    - apply type_validate_ok; exact H.
    - apply enum_validate_ok; exact H.
    - exact H.
    - apply maximum_validate_ok; exact H.
    - apply minimum_validate_ok; exact H.
    - apply multiple_of_ok; exact H.
    - apply min_len_ok; exact H.
    - apply max_len_ok; exact H.
    - apply format_ok; exact H.
    - apply pattern_ok; exact H.
    - exact (proj2 (required_ok _ _ _) H).
    - apply min_len_ok; exact H.
    - apply max_len_ok; exact H.
    - unfold object_validate. destruct v; try reflexivity. simpl in H.
      apply for_each_Ok. eapply Forall_impl; [|exact H].
      intros [k x] Hx. apply member_validate_ok; exact Hx.
    - exact (proj2 (dep_required_ok _ _ _) H).
    - unfold dep_schemas_validate. destruct v; try reflexivity. simpl in H.
      apply for_each_Ok. eapply Forall_impl; [|exact H].
      intros [k n] Hx. simpl in *. destruct (dmem k d) eqn:Hm; [|reflexivity].
      apply Hx. apply dmem_In; exact Hm.
    - apply array_ok2; [|exact H]. destruct prefix; exact Hlf.
    - apply contains_ok; exact H.
    - apply min_len_ok; exact H.
    - apply max_len_ok; exact H.
    - apply unique_ok; exact H.
    - apply for_each_Ok; exact H.
    - apply anyof_ok; exact H.
    - apply oneof_ok; exact H.
    - apply not_ok; exact H.
    - apply cond_ok; exact H.
  Qed.
End Fixed.

(** ** Monotone families *)
Definition ev (P : nat -> Prop) : Prop := exists f0, forall f, (f0 <= f)%nat -> P f.
Lemma ev_and P Q : ev P -> ev Q -> ev (fun f => P f /\ Q f).
Proof.
  intros [a Ha] [b Hb]. exists (Nat.max a b). intros f Hf. split; [apply Ha|apply Hb]; lia.
Qed.
Lemma ev_all (P : nat -> Prop) : (forall f, P f) -> ev P.
Proof. intro H; exists 0%nat; auto. Qed.
Lemma ev_impl (P Q : nat -> Prop) : (forall f, P f -> Q f) -> ev P -> ev Q.
Proof. intros H [a Ha]. exists a. auto. Qed.
Lemma ev_Forall {A} (P : nat -> A -> Prop) l :
  Forall (fun x => ev (fun f => P f x)) l -> ev (fun f => Forall (P f) l).
Proof.
  induction 1 as [|x l Hx Hl IH].
  - apply ev_all; intro. constructor.
  - eapply ev_impl; [|exact (ev_and _ _ Hx IH)]. intros f [H1 H2]. constructor; assumption.
Qed.
Lemma ev_Forall2 {A B} (P : nat -> A -> B -> Prop) l m :
  Forall2 (fun x y => ev (fun f => P f x y)) l m -> ev (fun f => Forall2 (P f) l m).
Proof.
  induction 1 as [|x y l m Hx Hl IH].
  - apply ev_all; intro. constructor.
  - eapply ev_impl; [|exact (ev_and _ _ Hx IH)]. intros f [H1 H2]. constructor; assumption.
Qed.
Lemma ev_option {A} (o : option A) (P : nat -> A -> Prop) :
  (forall n, o = Some n -> ev (fun f => P f n)) -> ev (fun f => forall n, o = Some n -> P f n).
Proof.
  intro H. destruct o as [a|].
  - eapply ev_impl; [|exact (H a eq_refl)]. intros f Hf n Hn; injection Hn as <-; exact Hf.
  - apply ev_all; intro. intros n Hn; discriminate.
Qed.
(** over the positions of a list *)
Lemma ev_nth {A} (l : list A) (P : nat -> nat -> A -> Prop) :
  (forall i x, nth_error l i = Some x -> ev (fun f => P f i x)) ->
  ev (fun f => forall i x, nth_error l i = Some x -> P f i x).
Proof.
  revert P; induction l as [|y l IH]; intros P H.
  - apply ev_all; intro. intros [|i] x Hx; discriminate.
  - assert (H0 : ev (fun f => P f 0%nat y)) by (apply (H 0%nat y); reflexivity).
    assert (H1 : ev (fun f => forall i x, nth_error l i = Some x -> P f (S i) x)).
    { apply (IH (fun f i x => P f (S i) x)). intros i x Hx. apply (H (S i) x Hx). }
    eapply ev_impl; [|exact (ev_and _ _ H0 H1)].
    intros f [Ha Hb] [|i] x Hx; simpl in Hx.
    + injection Hx as <-; exact Ha.
    + apply Hb; exact Hx.
Qed.
Lemma ev_ex (P : nat -> Prop) : ev P -> exists f, P f.
Proof. intros [a Ha]; exists a; apply Ha; lia. Qed.
Lemma ev_at_least k P : ev P -> exists f, (k <= f)%nat /\ P f.
Proof. intros [a Ha]. exists (Nat.max k a). split; [lia|apply Ha; lia]. Qed.

Section Family.
  Context {node C : Type} (view : node -> res (nview node)) (E : env).
  Variable rec : nat -> C -> pv -> ctx -> res unit.
  Hypothesis Hmono : forall f f' n v c, (f <= f')%nat -> le_res (rec f n v c) (rec f' n v c).

  Definition facc n v c := exists f, rec f n v c = Ok tt.
  Definition frej n v c := exists f e, rec f n v c = Raise (EValid e).
  Let A f n v c := rec f n v c = Ok tt.
  Let R f n v c := exists e, rec f n v c = Raise (EValid e).

  Lemma facc_ev n v c : facc n v c -> ev (fun f => A f n v c).
  Proof.
    intros [f Hf]. exists f. intros f' Hle. eapply le_Ok; [|exact Hf]. apply Hmono; exact Hle.
  Qed.
  Lemma frej_ev n v c : frej n v c -> ev (fun f => R f n v c).
  Proof.
    intros (f & e & Hf). exists f. intros f' Hle. exists e.
    eapply le_Raise; [|exact Hf]. apply Hmono; exact Hle.
  Qed.
  Lemma facc_of f n v c : A f n v c -> facc n v c.
  Proof. intro H; exists f; exact H. Qed.
  Lemma frej_of f n v c : R f n v c -> frej n v c.
  Proof. intros [e H]; exists f, e; exact H. Qed.

  Lemma vholds_weaken f o v c : vholds view E (A f) (R f) o v c -> vholds view E facc frej o v c.
  Proof.
    pose proof (fun n v c => @facc_of f n v c) as Ha.
    pose proof (fun n v c => @frej_of f n v c) as Hr.
    destruct o; cbn [vholds]; intro H; try exact H.
    - destruct v; try exact I. eapply Forall_impl; [|exact H]. intros [k x] [H1 H2].
      split; [intros n Hn; apply Ha, H1, Hn|]. simpl in *.
      destruct (dget k (ov_data o)); [apply Ha; exact H2|]. destruct H2 as [H2 H3]. split.
      + intros pats Hp. eapply Forall_impl; [|exact (H2 pats Hp)].
        intros pn [H4 H5]. split; [exact H4|]. intro Hs; apply Ha, H5, Hs.
      + destruct H3 as [H3|H3]; [left; exact H3|right].
        unfold rest_ok in *. destruct (ov_addl o) as [[|n]|]; auto.
    - destruct v; try exact I. eapply Forall_impl; [|exact H]. intros [k n] Hn Hk. apply Ha, Hn, Hk.
    - destruct H as (vals & -> & [Hl Hp] & Hi). exists vals. split; [reflexivity|]. split.
      + split; [exact Hl|]. intros i p x H1 H2. apply Ha. exact (Hp i p x H1 H2).
      + intros n Hn i x H1 H2. apply Ha. exact (Hi n Hn i x H1 H2).
    - destruct H as (elems & flags & H1 & H2 & H3 & H4). exists elems, flags.
      split; [exact H1|]. split; [|auto].
      clear - H2 Ha Hr. induction H2 as [|y b ys bs Hb Hf IH]; constructor; auto.
      destruct b; auto.
    - eapply Forall_impl; [|exact H]. intros n Hn; apply Ha, Hn.
    - destruct H as (l1 & n & l2 & -> & H1 & H2). exists l1, n, l2. repeat split; auto.
      eapply Forall_impl; [|exact H1]. intros m Hm; apply Hr, Hm.
    - destruct H as (l1 & n & l2 & -> & H1 & H2). exists l1, n, l2. repeat split; auto.
      eapply Forall_impl; [|exact H2]. intros m Hm; apply Hr, Hm.
    - apply Hr, H.
    - intros i Hi. destruct (H i Hi) as [[H1 H2]|[H1 (n & H2 & H3)]].
      + left. split; [apply Ha, H1|]. intros n Hn; apply Ha, H2, Hn.
      + right. split; [apply Hr, H1|]. exists n. split; [exact H2|apply Ha, H3].
  Qed.

  Lemma vholds_ev o v c : vholds view E facc frej o v c -> ev (fun f => vholds view E (A f) (R f) o v c).
  Proof.
    pose proof facc_ev as Ha. pose proof frej_ev as Hr.
    destruct o; cbn [vholds]; intro H; try (apply ev_all; intro; exact H).
    - destruct v; try (apply ev_all; intro; exact I). apply ev_Forall.
      eapply Forall_impl; [|exact H]. intros [k x] [H1 H2]. unfold member_ok. simpl in *.
      apply ev_and.
      + apply (ev_option (ov_names o) (fun f n => A f n (VStr k) (c ++ [k]))).
        intros n Hn; apply Ha, H1, Hn.
      + destruct (dget k (ov_data o)); [apply Ha; exact H2|]. destruct H2 as [H2 H3]. apply ev_and.
        * apply (ev_option (ov_pat o) (fun f pats => Forall (fun pn => re_ok E (fst pn) = true /\
            (re_search E (fst pn) k = true -> A f (snd pn) x (c ++ [k]))) pats)).
          intros pats Hp. apply (ev_Forall (fun f pn => re_ok E (fst pn) = true /\
            (re_search E (fst pn) k = true -> A f (snd pn) x (c ++ [k])))).
          eapply Forall_impl; [|exact (H2 pats Hp)]. intros pn [H4 H5].
          apply ev_and; [apply ev_all; intro; exact H4|].
          destruct (re_search E (fst pn) k) eqn:Hs.
          -- eapply ev_impl; [|exact (Ha _ _ _ (H5 eq_refl))]. intros f Hf _; exact Hf.
          -- apply ev_all; intro. discriminate.
        * destruct H3 as [H3|H3].
          -- apply ev_all; intro. left; exact H3.
          -- unfold rest_ok in *. destruct (ov_addl o) as [[|n]|].
             ++ contradiction.
             ++ eapply ev_impl; [|exact (Ha _ _ _ H3)]. intros f Hf; right; exact Hf.
             ++ apply ev_all; intro. right; exact H3.
    - destruct v; try (apply ev_all; intro; exact I).
      apply (ev_Forall (fun f (kn : pystr * C) => In (fst kn) (dkeys d) -> A f (snd kn) (VDict d) c)).
      eapply Forall_impl; [|exact H]. intros [k n] Hn. simpl in *.
      destruct (in_dec pystr_eq_dec k (dkeys d)) as [Hin|Hnin].
      + eapply ev_impl; [|exact (Ha _ _ _ (Hn Hin))]. intros f Hf _; exact Hf.
      + apply ev_all; intro. intro; contradiction.
    - destruct H as (vals & -> & [Hl Hp] & Hi).
      set (ps := match prefix with Some ps => ps | None => [] end) in *.
      assert (H1 : ev (fun f => forall i p, nth_error ps i = Some p ->
                 forall x, nth_error vals i = Some x -> A f p x (c ++ [nat_str i]))).
      { apply (ev_nth ps (fun f i p => forall x, nth_error vals i = Some x -> A f p x (c ++ [nat_str i]))).
        intros i p Hip. apply (ev_option (nth_error vals i) (fun f x => A f p x (c ++ [nat_str i]))).
        intros x Hx. apply Ha. exact (Hp i p x Hip Hx). }
      assert (H2 : ev (fun f => forall n, items = Some n -> forall i x, nth_error vals i = Some x ->
                 (List.length ps <= i)%nat -> A f n x (c ++ [nat_str i]))).
      { apply (ev_option items (fun f n => forall i x, nth_error vals i = Some x ->
                 (List.length ps <= i)%nat -> A f n x (c ++ [nat_str i]))).
        intros n Hn. apply (ev_nth vals (fun f i x => (List.length ps <= i)%nat -> A f n x (c ++ [nat_str i]))).
        intros i x Hx. destruct (le_dec (List.length ps) i) as [Hle|Hgt].
        - eapply ev_impl; [|exact (Ha _ _ _ (Hi n Hn i x Hle Hx))]. intros f Hf _; exact Hf.
        - apply ev_all; intro. intro; contradiction. }
      eapply ev_impl; [|exact (ev_and _ _ H1 H2)]. intros f [F1 F2].
      exists vals. split; [reflexivity|]. split; [split; [exact Hl|]|].
      + intros i p x Hip Hx. exact (F1 i p Hip x Hx).
      + intros n Hn i x Hle Hx. exact (F2 n Hn i x Hx Hle).
    - destruct H as (elems & flags & H1 & H2 & H3 & H4).
      assert (H5 : ev (fun f => Forall2 (fun y (b : bool) => if b then A f c0 y [] else R f c0 y []) elems flags)).
      { apply (ev_Forall2 (fun f y (b : bool) => if b then A f c0 y [] else R f c0 y [])).
        clear - H2 Ha Hr. induction H2 as [|y b ys bs Hb Hf IH]; constructor; auto. destruct b; auto. }
      eapply ev_impl; [|exact H5]. intros f Hf. exists elems, flags. auto.
    - apply (ev_Forall (fun f n => A f n v c)). eapply Forall_impl; [|exact H]. intros n Hn; apply Ha, Hn.
    - destruct H as (l1 & n & l2 & -> & H1 & H2).
      assert (H3 : ev (fun f => Forall (fun m => R f m v c) l1)).
      { apply (ev_Forall (fun f m => R f m v c)). eapply Forall_impl; [|exact H1]. intros m Hm; apply Hr, Hm. }
      eapply ev_impl; [|exact (ev_and _ _ H3 (Ha _ _ _ H2))]. intros f [F1 F2].
      exists l1, n, l2. auto.
    - destruct H as (l1 & n & l2 & -> & H1 & H2).
      assert (H3 : ev (fun f => Forall (fun m => R f m v c) (l1 ++ l2))).
      { apply (ev_Forall (fun f m => R f m v c)). eapply Forall_impl; [|exact H2]. intros m Hm; apply Hr, Hm. }
      eapply ev_impl; [|exact (ev_and _ _ (Ha _ _ _ H1) H3)]. intros f [F1 F2].
      exists l1, n, l2. auto.
    - apply Hr, H.
    - destruct (cv_if c0) as [i|].
      + destruct (H i eq_refl) as [[H1 H2]|[H1 (n & H2 & H3)]].
        * assert (H3 : ev (fun f => forall n, cv_then c0 = Some n -> A f n v c)).
          { apply (ev_option (cv_then c0) (fun f n => A f n v c)). intros n Hn; apply Ha, H2, Hn. }
          eapply ev_impl; [|exact (ev_and _ _ (Ha _ _ _ H1) H3)].
          intros f [F1 F2] i' Hi; injection Hi as <-. left; auto.
        * eapply ev_impl; [|exact (ev_and _ _ (Hr _ _ _ H1) (Ha _ _ _ H3))].
          intros f [F1 F2] i' Hi; injection Hi as <-. right. eauto.
      + apply ev_all; intro. intros i Hi; discriminate.
  Qed.

  (** Some budget suffices iff the declarative condition holds; then every
      larger budget suffices. *)
  Theorem run_vobj_ev o v c :
    vholds view E facc frej o v c <->
    ev (fun f => run_vobj view E (rec f) f o v c = Ok tt).
  Proof.
    split.
    - intro H. apply vholds_ev in H. destruct H as [a Ha].
      exists (Nat.max a (S (tuple_len o))). intros f Hf.
      apply run_vobj_complete; [lia|]. apply Ha; lia.
    - intro H. apply ev_ex in H as [f Hf]. apply run_vobj_sound in Hf.
      eapply vholds_weaken; exact Hf.
  Qed.
  Theorem run_vobj_iff o v c :
    (exists f, run_vobj view E (rec f) f o v c = Ok tt) <-> vholds view E facc frej o v c.
  Proof.
    split.
    - intros [f Hf]. apply run_vobj_sound in Hf. eapply vholds_weaken; exact Hf.
    - intro H. apply run_vobj_ev in H. apply ev_ex; exact H.
  Qed.
End Family.
