(** A validator that rejects contradicts the acceptance condition. *)
From Verif Require Import PyBase PyBaseFacts PyVal Errors Validators Spec LeafFacts RunFacts.
From Coq Require Import QArith ZifyBool.
Local Open Scope Z_scope.

Lemma for_each_raise_in {A} (f : A -> res unit) l e : for_each f l = Raise e -> exists x, In x l /\ f x = Raise e.
Proof.
  induction l as [|x l IH]; cbn [for_each]; [discriminate|]. destruct (f x) as [[]|e'|] eqn:Hx; cbn [bind]; intro H.
  - destruct (IH H) as (y & Hy & Hf). exists y. split; [right; exact Hy|exact Hf].
  - exists x. split; [left; reflexivity|congruence].
  - discriminate.
Qed.

Section Reject.
  Context {node C : Type} (view : node -> res (nview node)) (E : env).
  Variable rec : C -> pv -> ctx -> res unit.
  Variable acc rej : C -> pv -> ctx -> Prop.
  Hypothesis Hacc : forall n v c e, acc n v c -> rec n v c <> Raise (EValid e).
  Hypothesis Hrej : forall n v c, rej n v c -> rec n v c <> Ok tt.
  Notation vholds := (vholds view E acc rej).

  Lemma try_none m : try_valid m = Ok None -> m = Ok tt.
  Proof. destruct m as [[]|[]|]; simpl; congruence. Qed.
  Lemma try_some m e : try_valid m = Ok (Some e) -> m = Raise (EValid e).
  Proof. destruct m as [[]|[]|]; simpl; congruence. Qed.
  Lemma try_raise m e : try_valid m = Raise (EValid e) -> False.
  Proof. destruct m as [[]|[]|]; simpl; congruence. Qed.

  Lemma pattern_loop_reject pats k x c b e :
    pattern_loop E rec pats k x c b = Raise (EValid e) ->
    exists p n, In (p, n) pats /\ re_search E p k = true /\ rec n x (c ++ [k]) = Raise (EValid e).
  Proof.
    revert b; induction pats as [|[p n] pats IH]; intro b; cbn [pattern_loop]; [discriminate|].
    destruct (re_ok E p); [|discriminate].
    assert (Hrest : forall b', pattern_loop E rec pats k x c b' = Raise (EValid e) ->
      exists p0 n0, In (p0, n0) ((p, n) :: pats) /\ re_search E p0 k = true /\ rec n0 x (c ++ [k]) = Raise (EValid e)).
    { intros b' H. destruct (IH b' H) as (p' & n' & H1 & H2). exists p', n'. split; [right; exact H1|exact H2]. }
    destruct (re_search E p k) eqn:Hs; [|apply Hrest]. unfold ctx_add.
    destruct (rec n x (c ++ [k])) as [[]|e'|] eqn:Hr; cbn [bind]; [apply Hrest| |discriminate].
    intro H. exists p, n. split; [left; reflexivity|]. split; [exact Hs|congruence].
  Qed.
  Lemma pattern_loop_flag pats k x c b b' : pattern_loop E rec pats k x c b = Ok b' ->
    b' = (b || existsb (fun pn => re_search E (fst pn) k) pats)%bool.
  Proof. intro H. apply (pattern_loop_ok E rec) in H as [_ H]. exact H. Qed.
  Lemma member_reject o c key x e : member_validate E rec o c (key, x) = Raise (EValid e) ->
    member_ok E acc o c key x -> False.
  Proof.
    unfold member_validate, member_ok. intros H [Hn Hm].
    assert (Hrest : match dget key (ov_data o) with
      | Some n => rec n x (ctx_add c key)
      | None =>
          evaluated <- (match ov_pat o with
                        | Some pats => pattern_loop E rec pats key x c false
                        | None => Ok false
                        end) ;;
          if evaluated then Ok tt
          else match ov_addl o with
               | Some s => run_sub rec s x (ctx_add c key)
               | None => if ov_uneval o then raise_verr KFail (ctx_path (ctx_add c key)) else Ok tt
               end
      end = Raise (EValid e)).
    { destruct (ov_names o) as [s|]; [|exact H]. specialize (Hn s eq_refl).
      destruct (rec s (VStr key) (ctx_add c key)) as [[]|e'|] eqn:Hr; cbn [bind] in H; [exact H| |discriminate].
      exfalso. injection H as ->. exact (Hacc _ _ _ _ Hn Hr). }
    clear H Hn. destruct (dget key (ov_data o)) as [n|]; [exact (Hacc _ _ _ _ Hm Hrest)|].
    destruct Hm as [Hp Hm].
    destruct (match ov_pat o with Some pats => pattern_loop E rec pats key x c false | None => Ok false end) as [b|e'|] eqn:Hl;
      cbn [bind] in Hrest; [| |discriminate].
    - destruct b; [discriminate|].
      destruct Hm as [(pats & p & n & Hpats & Hin & Hs)|Hm].
      + rewrite Hpats in Hl. apply pattern_loop_flag in Hl.
        assert (Hex : existsb (fun pn => re_search E (fst pn) key) pats = true).
        { apply existsb_exists. exists (p, n). auto. }
        rewrite Hex in Hl. discriminate.
      + unfold rest_ok in Hm. destruct (ov_addl o) as [[|n]|].
        * contradiction.
        * exact (Hacc _ _ _ _ Hm Hrest).
        * rewrite Hm in Hrest. discriminate.
    - injection Hrest as ->. destruct (ov_pat o) as [pats|]; [|discriminate].
      apply pattern_loop_reject in Hl as (p & n & Hin & Hs & Hr). specialize (Hp pats eq_refl).
      rewrite Forall_forall in Hp. exact (Hacc _ _ _ _ (proj2 (Hp (p, n) Hin) Hs) Hr).
  Qed.

  Lemma prefix_reject lf ps vals i c e : prefix_loop rec lf ps vals i c = Raise (EValid e) ->
    (List.length ps <= List.length vals)%nat ->
    exists j p x, nth_error ps j = Some p /\ nth_error vals j = Some x /\ rec p x (c ++ [nat_str j]) = Raise (EValid e).
  Proof.
    revert i; induction lf as [|lf IH]; intros i; cbn [prefix_loop]; [discriminate|]. intros H Hl.
    destruct (nth_error ps i) as [p|] eqn:Hp; [|discriminate].
    destruct (nth_error vals i) as [x|] eqn:Hx.
    - unfold ctx_add in H. destruct (rec p x (c ++ [nat_str i])) as [[]|e'|] eqn:Hr; cbn [bind] in H.
      + exact (IH (S i) H Hl).
      + exists i, p, x. split; [exact Hp|]. split; [exact Hx|]. congruence.
      + discriminate.
    - exfalso. apply nth_error_None in Hx.
      assert (Hs : nth_error ps i <> None) by congruence. apply nth_error_Some in Hs. lia.
  Qed.
  Lemma items_reject n vals i c e : items_loop rec n vals i c = Raise (EValid e) ->
    exists j x, nth_error vals j = Some x /\ rec n x (c ++ [nat_str (i + j)]) = Raise (EValid e).
  Proof.
    revert i; induction vals as [|x vals IH]; intro i; cbn [items_loop]; [discriminate|]. unfold ctx_add.
    destruct (rec n x (c ++ [nat_str i])) as [[]|e'|] eqn:Hr; cbn [bind]; intro H.
    - destruct (IH (S i) H) as (j & y & Hy & Hr'). exists (S j), y. split; [exact Hy|].
      replace (i + S j)%nat with (S i + j)%nat by lia. exact Hr'.
    - exists 0%nat, x. split; [reflexivity|]. rewrite Nat.add_0_r. congruence.
    - discriminate.
  Qed.
  Lemma nth_error_skipn {A} i (l : list A) j : nth_error (skipn i l) j = nth_error l (i + j).
  Proof. revert l; induction i as [|i IH]; intro l; [reflexivity|]. destruct l; [destruct j; reflexivity|apply IH]. Qed.

  Lemma count_flags n l k : count_valid rec n l = Ok k ->
    forall flags, Forall2 (fun y (b : bool) => if b then acc n y [] else rej n y []) l flags -> k = count_true flags.
  Proof.
    revert k; induction l as [|x l IH]; intros k H flags Hf; inversion Hf as [|? b ? fl Hb Hf']; subst; cbn [count_valid] in H.
    - injection H as <-. reflexivity.
    - apply bind_Ok in H as (r & Hr & H). apply bind_Ok in H as (k' & Hk & H). injection H as <-.
      rewrite (IH k' Hk fl Hf'). cbn [count_true]. destruct r as [ve|].
      + apply try_some in Hr. destruct b; [exfalso; exact (Hacc _ _ _ _ Hb Hr)|]. reflexivity.
      + apply try_none in Hr. destruct b; [reflexivity|]. exfalso. exact (Hrej _ _ _ Hb Hr).
  Qed.
  Lemma count_raise n l e : count_valid rec n l = Raise (EValid e) -> False.
  Proof.
    induction l as [|x l IH]; cbn [count_valid]; [discriminate|].
    destruct (try_valid (rec n x [])) as [r|e'|] eqn:Hr; cbn [bind]; [| |discriminate].
    - destruct (count_valid rec n l) as [k|e''|]; cbn [bind]; [discriminate| |discriminate]. intro H. apply IH. congruence.
    - intro H. injection H as ->. exact (try_raise _ _ Hr).
  Qed.
  Lemma anyof_reject l v c last e : anyof_loop rec l v c last = Raise (EValid e) ->
    forall n, In n l -> exists e', rec n v c = Raise (EValid e').
  Proof.
    revert last; induction l as [|m l IH]; intros last H n Hn; [destruct Hn|]. cbn [anyof_loop] in H.
    destruct (try_valid (rec m v c)) as [[e'|]|e'|] eqn:Hr; cbn [bind] in H; try discriminate.
    - apply try_some in Hr. destruct Hn as [<-|Hn]; [eauto|exact (IH _ H n Hn)].
    - exfalso. injection H as ->. exact (try_raise _ _ Hr).
  Qed.
  Lemma oneof_reject l v c k last e : oneof_loop rec l v c k last = Raise (EValid e) ->
    exists oks, Forall2 (fun n (b : bool) => if b then rec n v c = Ok tt else exists e', rec n v c = Raise (EValid e')) l oks /\
      Z.of_nat k + count_true oks <> 1.
  Proof.
    revert k last; induction l as [|m l IH]; intros k last H; cbn [oneof_loop] in H.
    - exists []. split; [constructor|]. cbn [count_true]. destruct k as [|[|k]]; [lia|discriminate|lia].
    - destruct (try_valid (rec m v c)) as [[e'|]|e'|] eqn:Hr; cbn [bind] in H; try discriminate.
      + apply try_some in Hr. destruct (IH _ _ H) as (oks & Hf & Hc). exists (false :: oks). split.
        * constructor; [eauto|exact Hf].
        * cbn [count_true]. lia.
      + apply try_none in Hr. destruct (IH _ _ H) as (oks & Hf & Hc). exists (true :: oks). split.
        * constructor; [exact Hr|exact Hf].
        * cbn [count_true]. lia.
      + exfalso. injection H as ->. exact (try_raise _ _ Hr).
  Qed.
  Lemma count_true_app a b : count_true (a ++ b) = count_true a + count_true b.
  Proof. induction a as [|x a IH]; [reflexivity|]. cbn [app count_true]. rewrite IH. lia. Qed.
  Lemma count_all_false l : (forall b, In b l -> b = false) -> count_true l = 0.
  Proof.
    induction l as [|x l IH]; intro H; [reflexivity|]. cbn [count_true]. rewrite (H x (or_introl eq_refl)), IH; [reflexivity|].
    intros; apply H; right; assumption.
  Qed.
  Lemma rejected_flags l oks v c :
    Forall2 (fun n (b : bool) => if b then rec n v c = Ok tt else exists e', rec n v c = Raise (EValid e')) l oks ->
    Forall (fun n => rej n v c) l -> forall b, In b oks -> b = false.
  Proof.
    induction 1 as [|n b l oks Hb Hf IH]; intros Hr b' Hb'; [destruct Hb'|]. inversion Hr; subst.
    destruct Hb' as [<-|Hb']; [|auto]. destruct b; [|reflexivity]. exfalso. eapply Hrej; eassumption.
  Qed.

  Lemma reject_sound lf o v c e : run_vobj view E rec lf o v c = Raise (EValid e) -> vholds o v c -> False.
  Proof.
    destruct o; cbn [run_vobj]; intros H Hv;
      (* validators without sub-schemas: acceptance would make the run succeed *)
      try match goal with
      | H : ?m = Raise (EValid e) |- _ =>
          assert (m = Ok tt) as Hok; [|congruence]
      end.
    - contradiction.
    - apply type_validate_ok; exact Hv.
    - apply enum_validate_ok; exact Hv.
    - exact Hv.
    - apply maximum_validate_ok; exact Hv.
    - apply minimum_validate_ok; exact Hv.
    - apply multiple_of_ok; exact Hv.
    - apply min_len_ok; exact Hv.
    - apply max_len_ok; exact Hv.
    - apply format_ok; exact Hv.
    - apply pattern_ok; exact Hv.
    - exact (proj2 (required_ok _ _ _) Hv).
    - apply min_len_ok; exact Hv.
    - apply max_len_ok; exact Hv.
    - exfalso. unfold object_validate in H. destruct v; try discriminate. cbn [RunFacts.vholds] in Hv.
      apply for_each_raise_in in H as ([k x] & Hin & H). rewrite Forall_forall in Hv.
      exact (member_reject _ _ _ _ _ H (Hv (k, x) Hin)).
    - exact (proj2 (dep_required_ok _ _ _) Hv).
    - exfalso. unfold dep_schemas_validate in H. destruct v; try discriminate. cbn [RunFacts.vholds] in Hv.
      apply for_each_raise_in in H as ([k n] & Hin & H). rewrite Forall_forall in Hv.
      destruct (dmem k d) eqn:Hd; [|discriminate]. apply dmem_In in Hd.
      exact (Hacc _ _ _ _ (Hv (k, n) Hin Hd) H).
    - exfalso. cbn [RunFacts.vholds] in Hv. destruct Hv as (vals & -> & [Hl Hp] & Hi). unfold array_validate in H.
      set (ps := match prefix with Some ps => ps | None => [] end) in *.
      destruct (match prefix with None | Some [] => Ok O | Some ps => prefix_loop rec lf ps vals 0 c end) as [i|e'|] eqn:Hpre;
        cbn [bind] in H; [| |discriminate].
      + assert (Hi0 : i = List.length ps).
        { unfold ps. destruct prefix as [[|p ps']|]; try (injection Hpre as <-; reflexivity).
          apply prefix_loop_ok1 in Hpre as [-> _]; [reflexivity|lia]. }
        destruct items as [n|]; [|discriminate]. apply items_reject in H as (j & x & Hx & Hr).
        rewrite nth_error_skipn in Hx. subst i. apply (Hacc n x (c ++ [nat_str (List.length ps + j)]) e); [|exact Hr].
        apply (Hi n eq_refl); [lia|exact Hx].
      + injection H as ->. destruct prefix as [[|p ps']|]; try discriminate.
        apply prefix_reject in Hpre as (j & q & x & H1 & H2 & H3); [|exact Hl].
        exact (Hacc _ _ _ _ (Hp j q x H1 H2) H3).
    - exfalso. cbn [RunFacts.vholds] in Hv. destruct Hv as (elems & flags & Hit & Hf & H1 & H2). unfold contains_validate in H.
      apply py_iter_ok in Hit. rewrite Hit in H. cbn [bind] in H.
      destruct (count_valid rec c0 elems) as [k|e'|] eqn:Hk; cbn [bind] in H; [| |discriminate].
      + apply (fun Hc => count_flags _ _ _ Hc flags Hf) in Hk. subst k.
        destruct (Z.ltb_spec (count_true flags) mn); [lia|]. destruct mx as [m|]; [|discriminate].
        destruct (negb (m =? 0) && (count_true flags >? m))%bool eqn:Hc; [|discriminate].
        specialize (H2 m eq_refl). lia.
      + injection H as ->. exact (count_raise _ _ _ Hk).
    - apply min_len_ok; exact Hv.
    - apply max_len_ok; exact Hv.
    - apply unique_ok; exact Hv.
    - exfalso. apply for_each_raise_in in H as (n & Hin & H). cbn [RunFacts.vholds] in Hv. rewrite Forall_forall in Hv.
      exact (Hacc _ _ _ _ (Hv n Hin) H).
    - exfalso. cbn [RunFacts.vholds] in Hv. destruct Hv as (l1 & n & l2 & -> & _ & Hn).
      destruct (anyof_reject _ _ _ _ _ H n) as [e' He']; [apply in_or_app; right; left; reflexivity|].
      exact (Hacc _ _ _ _ Hn He').
    - exfalso. cbn [RunFacts.vholds] in Hv. destruct Hv as (l1 & n & l2 & -> & Hn & Hr).
      apply oneof_reject in H as (oks & Hf & Hc). apply Hc. clear Hc.
      apply Forall2_app_inv_l in Hf as (o1 & o2' & H1 & H2 & ->). inversion H2 as [|? b ? o2 Hb H2']; subst.
      apply Forall_app in Hr as [Hr1 Hr2].
      rewrite count_true_app. cbn [count_true].
      rewrite (count_all_false o1 (rejected_flags _ _ _ _ H1 Hr1)), (count_all_false o2 (rejected_flags _ _ _ _ H2' Hr2)).
      destruct b; [reflexivity|]. exfalso. destruct Hb as [e' He']. exact (Hacc _ _ _ _ Hn He').
    - exfalso. unfold not_validate in H. cbn [RunFacts.vholds] in Hv.
      destruct (try_valid (rec c0 v c)) as [[e'|]|e'|] eqn:Hr; cbn [bind] in H; try discriminate.
      + apply try_none in Hr. exact (Hrej _ _ _ Hv Hr).
      + injection H as ->. exact (try_raise _ _ Hr).
    - exfalso. unfold cond_validate in H. cbn [RunFacts.vholds] in Hv. destruct (cv_if c0) as [i|]; [|discriminate].
      specialize (Hv i eq_refl).
      destruct (try_valid (rec i v c)) as [[e'|]|e'|] eqn:Hr; cbn [bind] in H; try discriminate.
      + apply try_some in Hr. destruct Hv as [[Hv _]|[_ (n & Hn & Hv)]].
        * exact (Hacc _ _ _ _ Hv Hr).
        * rewrite Hn in H. exact (Hacc _ _ _ _ Hv H).
      + apply try_none in Hr. destruct Hv as [[_ Hv]|[Hv _]].
        * destruct (cv_then c0) as [n|]; [|discriminate]. exact (Hacc _ _ _ _ (Hv n eq_refl) H).
        * exact (Hrej _ _ _ Hv Hr).
      + injection H as ->. exact (try_raise _ _ Hr).
  Qed.
End Reject.
