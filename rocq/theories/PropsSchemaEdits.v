(** C109: validating with a schema that is edited between the calls. *)
From Verif Require Import PyBase PyBaseFacts PyVal Errors Validators Keywords Memory KeywordFacts Master PropsMemory SchemaEdits.
Local Open Scope Z_scope.
Local Notation length := List.length (only parsing).

(** ** Specification *)
(** the validators a validator calls *)
Definition sub_of {C} (s : option (sub C)) : list C := match s with Some (SLazy x) => [x] | _ => [] end.
Definition opt_of {C} (o : option C) : list C := match o with Some x => [x] | None => [] end.
Definition all_of {C} (o : option (list C)) : list C := match o with Some l => l | None => [] end.
Definition subs {node C} (o : vobj node C) : list C :=
  match o with
  | VObject o => map snd (ov_data o) ++ sub_of (ov_addl o) ++ map snd (all_of (ov_pat o)) ++ opt_of (ov_names o)
  | VDepSchemas m => map snd m
  | VArray items prefix => opt_of items ++ all_of prefix
  | VContains x _ _ | VNot x => [x]
  | VAllOf l | VAnyOf l | VOneOf l => l
  | VCond k => opt_of (cv_if k) ++ opt_of (cv_then k) ++ opt_of (cv_else k)
  | _ => []
  end.
(** an operand of [enum] or [const] that is no array and no object *)
Definition scalar {node} (x : nval node) : Prop := match x with NArr _ | NObj _ => False | _ => True end.
Definition settled {node C} (o : vobj node C) : Prop := match o with VEnum l => Forall scalar l | VConst x => scalar x | _ => True end.
(** everything in [S] is built, and calls only what is in [S] *)
Definition built {node} (h : @heap node) (S : lid -> Prop) : Prop :=
  forall l, S l -> (l < next h)%nat /\ exists d, c_state (cells h l) = Ready d /\ Forall (fun ko => Forall S (subs (snd ko)) /\ settled (snd ko)) d.

Section Edits.
  Context {node : Type} (E : env).
  Variable voc : list akw.
  Notation heap := (@heap node).

  Lemma raw_settled (view view' : node -> res (nview node)) x v : scalar x -> eq_raw view x v = eq_raw view' x v.
  Proof. destruct x, v; try contradiction; reflexivity. Qed.
  Lemma enum_settled (view view' : node -> res (nview node)) l v c : Forall scalar l -> enum_validate view l v c = enum_validate view' l v c.
  Proof.
    intro F. unfold enum_validate. replace (enum_tweak_loop view l v) with (enum_tweak_loop view' l v); [replace (enum_in view l v) with (enum_in view' l v); [reflexivity|]|].
    - induction F as [|x l Hx _ IH]; [reflexivity|]. cbn [enum_in]. rewrite (raw_settled view' view x v Hx), IH. reflexivity.
    - induction F as [|x l Hx _ IH]; [reflexivity|]. cbn [enum_tweak_loop]. rewrite (raw_settled view' view x v Hx), IH. reflexivity.
  Qed.
  Lemma const_settled (view view' : node -> res (nview node)) x v c : scalar x -> const_validate view x v c = const_validate view' x v c.
  Proof. intro F. unfold const_validate. rewrite (raw_settled view view' x v F). reflexivity. Qed.

  (** ** Everything is built *)
  Section Built.
    Variables (view : node -> res (nview node)) (strx : node -> pystr) (h : heap) (S : lid -> Prop).
    Hypothesis Hgood : good view strx E voc h.
    Hypothesis Hbuilt : built h S.
    Variables (view1 : node -> res (nview node)) (strx1 : node -> pystr).
    Definition same {X} (m : @M node X) (r : res X) : Prop := m h = (h, r).
    Lemma same_ret {X} (r : res X) : same (retM r) r. Proof. reflexivity. Qed.
    Lemma same_bind {X Y} (m : @M node X) r (k : X -> M Y) k' : same m r -> (forall x, same (k x) (k' x)) -> same (bindM m k) (bind r k').
    Proof. intros Hm Hk. unfold same, bindM. rewrite Hm. destruct r; [apply Hk|reflexivity..]. Qed.
    Lemma same_try m r : same m r -> same (tryM m) (try_valid r).
    Proof. intro Hm. unfold same, tryM. rewrite Hm. reflexivity. Qed.
    Lemma same_for {X Y} (P : X -> Y -> Prop) (f : X -> M unit) g l m : (forall a b, P a b -> same (f a) (g b)) -> Forall2 P l m -> same (forM f l) (for_each g m).
    Proof. intros Hf. induction 1; simpl; [apply same_ret|]. apply same_bind; [auto|intros _; assumption]. Qed.
    Definition R (l : lid) (n : node) : Prop := S l /\ c_node (cells h l) = n.
    Section Run.
    Variables (recM : lid -> pv -> ctx -> @M node unit) (rec : node -> pv -> ctx -> res unit).
    Hypothesis Hrec : forall l n v c, R l n -> same (recM l v c) (rec n v c).
    Lemma same_pattern a b k x c ev : Forall2 (named R) a b ->
      same (pattern_loopM E recM a k x c ev) (pattern_loop E rec b k x c ev).
    Proof.
      intro H. revert ev. induction H as [|[p l] [q n] a b [Hk Hr] _ IH]; intro ev; simpl; [apply same_ret|].
      simpl in Hk, Hr. subst q. destruct (re_ok E p); [|apply same_ret].
      destruct (re_search E p k); [|apply IH]. apply same_bind; [apply Hrec; exact Hr|intros _; apply IH].
    Qed.
    Lemma same_member a b c kx : objrel R a b -> same (member_validateM E recM a c kx) (member_validate E rec b c kx).
    Proof.
      intros (H1 & H2 & H3 & H4 & H5). destruct kx as [k x]. unfold member_validateM, member_validate.
      apply same_bind.
      - destruct (ov_names a), (ov_names b); try contradiction; [apply Hrec; exact H5|apply same_ret].
      - intros _. pose proof (named_dget R k _ _ H1) as Hd.
        destruct (dget k (ov_data a)), (dget k (ov_data b)); try contradiction; [apply Hrec; exact Hd|].
        apply same_bind.
        + destruct (ov_pat a), (ov_pat b); try contradiction; [apply same_pattern; exact H3|apply same_ret].
        + intros [|]; [apply same_ret|]. rewrite H4.
          destruct (ov_addl a) as [[|]|], (ov_addl b) as [[|]|]; try contradiction; simpl;
            try apply same_ret; [apply Hrec; exact H2|]. destruct (ov_uneval b); apply same_ret.
    Qed.
    Lemma same_prefix lf a b vals i c : Forall2 R a b ->
      same (prefix_loopM recM lf a vals i c) (prefix_loop rec lf b vals i c).
    Proof.
      intro H. revert i. induction lf as [|lf IH]; intro i; simpl; [apply same_ret|].
      pose proof (Forall2_nth _ _ _ i H) as Hi.
      destruct (nth_error a i), (nth_error b i); try contradiction; [|apply same_ret].
      destruct (nth_error vals i); (apply same_bind; [apply Hrec; exact Hi|intros _; apply IH]).
    Qed.
    Lemma same_items l n vals i c : R l n -> same (items_loopM recM l vals i c) (items_loop rec n vals i c).
    Proof.
      intro H. revert i. induction vals as [|x vals IH]; intro i; simpl; [apply same_ret|].
      apply same_bind; [apply Hrec; exact H|intros _; apply IH].
    Qed.
    Lemma same_count l n xs : R l n -> same (count_validM recM l xs) (count_valid rec n xs).
    Proof.
      intro H. induction xs as [|x xs IH]; simpl; [apply same_ret|].
      apply same_bind; [apply same_try, Hrec; exact H|]. intro r. apply same_bind; [exact IH|]. intro k. apply same_ret.
    Qed.
    Lemma same_anyof a b v c last : Forall2 R a b -> same (anyof_loopM recM a v c last) (anyof_loop rec b v c last).
    Proof.
      intro H. revert last. induction H as [|l n a b Hr _ IH]; intro last; simpl; [apply same_ret|].
      apply same_bind; [apply same_try, Hrec; exact Hr|]. intros [e|]; [apply IH|apply same_ret].
    Qed.
    Lemma same_oneof a b v c k last : Forall2 R a b ->
      same (oneof_loopM recM a v c k last) (oneof_loop rec b v c k last).
    Proof.
      intro H. revert k last. induction H as [|l n a b Hr _ IH]; intros k last; simpl; [apply same_ret|].
      apply same_bind; [apply same_try, Hrec; exact Hr|]. intros [e|]; apply IH.
    Qed.
    Lemma same_cond a b v c : condrel R a b -> same (cond_validateM recM a v c) (cond_validate rec b v c).
    Proof.
      intros (H1 & H2 & H3). unfold cond_validateM, cond_validate.
      destruct (cv_if a), (cv_if b); try contradiction; [|apply same_ret].
      apply same_bind; [apply same_try, Hrec; exact H1|]. intros [e|].
      - destruct (cv_else a), (cv_else b); try contradiction; [apply Hrec; exact H3|apply same_ret].
      - destruct (cv_then a), (cv_then b); try contradiction; [apply Hrec; exact H2|apply same_ret].
    Qed.
    Lemma same_run lf (a : vobj node lid) (b : vobj node node) v c : vrel R a b -> settled a ->
      same (run_vobjM view1 E recM lf a v c) (run_vobj view E rec lf b v c).
    Proof.
      destruct a, b; simpl; intros H St; try contradiction;
        repeat match goal with H : _ /\ _ |- _ => destruct H end; subst; try apply same_ret.
      - rewrite (enum_settled view1 view); [apply same_ret|exact St].
      - rewrite (const_settled view1 view); [apply same_ret|exact St].
      - unfold object_validateM, object_validate. destruct v; try apply same_ret.
        apply (same_for eq); [|clear; induction d; constructor; auto]. intros x y <-. apply same_member; exact H.
      - unfold dep_schemas_validateM, dep_schemas_validate. destruct v; try apply same_ret.
        apply (same_for (named R)); [|exact H]. intros [k l] [k' n] [Hk Hr]. simpl in Hk, Hr. subst k'.
        destruct (dmem k d); [apply Hrec; exact Hr|apply same_ret].
      - unfold array_validateM, array_validate. destruct v; try apply same_ret.
        apply same_bind.
        + destruct prefix as [a|], prefix0 as [b|]; try contradiction; [|apply same_ret].
          destruct H0 as [|x y a b Hxy Hab]; [apply same_ret|]. apply same_prefix. constructor; assumption.
        + intro i. destruct items as [a|], items0 as [b|]; try contradiction; [|apply same_ret].
          apply same_items. exact H.
      - unfold contains_validateM, contains_validate. apply same_bind; [apply same_ret|]. intro l.
        apply same_bind; [apply same_count; exact H|]. intro k. apply same_ret.
      - apply (same_for R); [|exact H]. intros x y Hxy. apply Hrec; exact Hxy.
      - apply same_anyof; exact H.
      - apply same_oneof; exact H.
      - unfold not_validateM, not_validate. apply same_bind; [apply same_try, Hrec; exact H|].
        intros [e|]; apply same_ret.
      - apply same_cond; exact H.
    Qed.
    End Run.
    Lemma subs_R (a : vobj node lid) (b : vobj node node) : vrel (stands h) a b -> Forall S (subs a) -> vrel R a b.
    Proof.
      assert (P : forall x y, S x -> stands h x y -> R x y) by (intros x y Sx [_ E0]; split; assumption).
      assert (L : forall l m, Forall2 (stands h) l m -> Forall S l -> Forall2 R l m) by (intros l m H; induction H as [|x y l m H _ IH]; intro F; inversion F; subst; constructor; auto).
      assert (N : forall l m, Forall2 (named (stands h)) l m -> Forall S (map snd l) -> Forall2 (named R) l m).
      { intros l m H; induction H as [|[k x] [k' y] l m [H1 H2] _ IH]; intro F; inversion F; subst; constructor; auto. split; [exact H1|]. apply P; assumption. }
      assert (O : forall x y, orel (stands h) x y -> Forall S (opt_of x) -> orel R x y) by (intros [x|] [y|] H F; try contradiction; [inversion F; subst; apply P; assumption|exact I]).
      destruct a, b; simpl; try contradiction; auto; intros H F; repeat rewrite Forall_app in F.
      - destruct H as (H1 & H2 & H3 & H4 & H5). destruct F as (F1 & F2 & F3 & F4). split; [auto|]. split; [|split; [|auto]].
        + destruct (ov_addl o) as [[|x]|], (ov_addl o0) as [[|y]|]; try contradiction; try exact I. inversion F2; subst. apply P; assumption.
        + destruct (ov_pat o) as [x|], (ov_pat o0) as [y|]; try contradiction; try exact I. apply N; assumption.
      - destruct H as [H1 H2], F as [F1 F2]. split; [auto|]. destruct prefix as [x|], prefix0 as [y|]; try contradiction; try exact I. apply L; assumption.
      - destruct H as [H1 H2]. inversion F; subst. auto.
      - inversion F; subst. auto.
      - destruct H as (H1 & H2 & H3), F as (F1 & F2 & F3). repeat split; auto.
    Qed.
    Lemma built_same fuel : forall l n v c, R l n -> same (validateM view1 strx1 E voc fuel l v c) (validate view strx E voc fuel n v c).
    Proof.
      induction fuel as [|f IH]; intros l n v c [Sl El]; [reflexivity|]. unfold same. cbn [validateM validate].
      destruct (Hbuilt l Sl) as (Ll & d & Ed & Fd). rewrite Ed. pose proof (Hgood l Ll) as G. unfold good_cell in G. rewrite Ed, El in G. destruct G as (d0 & Ec & T). rewrite Ec. cbn [bind].
      refine (same_for (fun a b => vrel R (snd a) (snd b) /\ settled (snd a)) _ _ d d0 _ _).
      - intros a b [H1 H2]. apply same_run; [|exact H1|exact H2]. intros l1 n1 v1 c1 H3. apply IH. exact H3.
      - clear -T Fd. induction T as [|a b d d0 [_ H] _ IHT]; inversion Fd as [|? ? [F1 F2] F3]; subst; constructor; auto. split; [apply subs_R; assumption|assumption].
    Qed.
  End Built.

  (** what the outcome of a call should be: that of the schema as it is *)
  Definition up_to_date (root : node) (o : @outcome node) : Prop :=
    o_result o = validate (d_view (o_doc o)) (d_str (o_doc o)) E voc (o_fuel o) root (o_value o) [].

  (** C109, what holds instead: once all validators are built, no edit has any
      effect.  [calls] is what led there, from the schema [d]. *)
  Theorem C109_stale root d calls S steps log d' h' : wf_view (d_view d) ->
    built (after (d_view d) (d_str d) E voc calls (Memory.fresh root)) S -> S 0%nat ->
    session E voc steps d (after (d_view d) (d_str d) E voc calls (Memory.fresh root)) = (log, d', h') ->
    Forall (fun o : @outcome node => o_result o = validate (d_view d) (d_str d) E voc (o_fuel o) root (o_value o) []) log.
  Proof.
    intros Hwf B S0. assert (Hs : stands (Memory.fresh root) 0%nat root) by (split; simpl; [lia|reflexivity]).
    destruct (after_good (d_view d) (d_str d) E voc Hwf calls root _ (fresh_good _ _ _ _ root) Hs) as [G St].
    revert G St B. generalize (after (d_view d) (d_str d) E voc calls (Memory.fresh root)). intros h G St B.
    generalize d at 1 as d1. revert log. induction steps as [|[fuel v|d2] steps IH]; intros log d1 E1; cbn [session] in E1.
    - injection E1 as <- <- <-. constructor.
    - pose proof (built_same (d_view d) (d_str d) h S G B (d_view d1) (d_str d1) fuel 0%nat root v [] (conj S0 (proj2 St))) as K. unfold same in K. rewrite K in E1.
      destruct (session E voc steps d1 h) as [[log1 d3] h3] eqn:E2. injection E1 as <- <- <-. constructor; [reflexivity|]. exact (IH _ _ E2).
    - exact (IH _ _ E1).
  Qed.

  (** ** Edits of what is not used yet *)
  (** a validator for [n] has been built, or begun *)
  Definition used (h : heap) (n : node) : Prop := exists l, (l < next h)%nat /\ c_node (cells h l) = n /\ c_state (cells h l) <> Building [].
  (** the keywords of [n] are the same in both schemas *)
  Definition unchanged (d d1 : @doc node) (n : node) : Prop :=
    d_view d1 n = d_view d n /\ forall w k t, d_view d n = Ok w -> step_kw (d_view d1) (d_str d1) E w k t = step_kw (d_view d) (d_str d) E w k t.
  (** the history edits only what has not been used *)
  Fixpoint careful (steps : list step) (d : doc) (h : heap) : Prop :=
    match steps with
    | [] => True
    | Validate fuel v :: steps' => careful steps' d (fst (validateM (d_view d) (d_str d) E voc fuel 0%nat v [] h))
    | Edit d1 :: steps' => wf_view (d_view d1) /\ (forall n, used h n -> unchanged d d1 n) /\ careful steps' d1 h
    end.
  Lemma unchanged_run d d1 n w l : unchanged d d1 n -> d_view d n = Ok w -> forall t, run_kws (d_view d1) (d_str d1) E w l t = run_kws (d_view d) (d_str d) E w l t.
  Proof.
    intros [_ U] Hw. induction l as [|k l IH]; intro t; [reflexivity|]. cbn [run_kws]. rewrite (U w k t Hw). destruct (step_kw (d_view d) (d_str d) E w k t); cbn [bind]; auto.
  Qed.
  Lemma unchanged_good d d1 h : good (d_view d) (d_str d) E voc h -> (forall n, used h n -> unchanged d d1 n) -> good (d_view d1) (d_str d1) E voc h.
  Proof.
    intros G U l Hl. pose proof (G l Hl) as Gl. unfold good_cell in *. destruct (c_state (cells h l)) as [t|t] eqn:Es.
    - destruct Gl as [->|(w & l1 & l2 & Hw & Nb & Ev & Er)]; [left; reflexivity|]. destruct t as [|e t]; [left; reflexivity|]. right.
      assert (Un : unchanged d d1 (c_node (cells h l))) by (apply U; exists l; split; [exact Hl|split; [reflexivity|congruence]]).
      exists w, l1, l2. split; [rewrite (proj1 Un); exact Hw|]. split; [exact Nb|]. split; [exact Ev|]. rewrite (unchanged_run _ _ _ _ _ Un Hw). exact Er.
    - destruct Gl as (t0 & Ec & T). exists t0. split; [|exact T].
      assert (Un : unchanged d d1 (c_node (cells h l))) by (apply U; exists l; split; [exact Hl|split; [reflexivity|congruence]]).
      unfold compile in *. rewrite (proj1 Un). destruct (d_view d (c_node (cells h l))) as [w| |] eqn:Hw; try discriminate. cbn [bind] in *. rewrite (unchanged_run _ _ _ _ _ Un Hw). exact Ec.
  Qed.
  (** C109, for histories that edit only what no call has used: every outcome is
      that of the schema as it is. *)
  Theorem C109_partial root d steps log d' h' : wf_view (d_view d) -> careful steps d (Memory.fresh root) ->
    session E voc steps d (Memory.fresh root) = (log, d', h') -> Forall (up_to_date root) log.
  Proof.
    intro Hwf. assert (Hs : stands (Memory.fresh root) 0%nat root) by (split; simpl; [lia|reflexivity]).
    pose proof (fresh_good (d_view d) (d_str d) E voc root) as G. revert Hs G. generalize (Memory.fresh root). revert d Hwf log.
    induction steps as [|[fuel v|d2] steps IH]; intros d Hwf log h Hs G C E1; cbn [session careful] in *.
    - injection E1 as <- <- <-. constructor.
    - destruct (validateM_sim (d_view d) (d_str d) E voc Hwf fuel 0%nat root v [] h Hs h G (ext_refl h)) as (h1 & E0 & G1 & X1). rewrite E0 in *. cbn [fst] in C.
      destruct (session E voc steps d h1) as [[log1 d3] h3] eqn:E2. injection E1 as <- <- <-. constructor; [reflexivity|]. exact (IH d Hwf _ h1 (stands_ext _ _ _ _ X1 Hs) G1 C E2).
    - destruct C as (Hwf2 & U & C). exact (IH d2 Hwf2 _ h Hs (unchanged_good _ _ _ G U) C E1).
  Qed.
  (** in particular, edits before the first call all count *)
  Theorem C109_before root d edits calls log d' h' : wf_view (d_view d) -> Forall (fun d1 : @doc node => wf_view (d_view d1)) edits ->
    session E voc (map Edit edits ++ map (fun fv => Validate (fst fv) (snd fv)) calls) d (Memory.fresh root) = (log, d', h') ->
    Forall (up_to_date root) log.
  Proof.
    intros Hwf F. apply C109_partial; [exact Hwf|]. clear Hwf log d' h'. revert d. induction F as [|d1 edits H1 _ IH]; intro d; cbn [map app careful].
    - generalize (Memory.fresh root). induction calls as [|c calls IHc]; intro h; cbn [map careful]; auto.
    - split; [exact H1|]. split; [|apply IH]. intros n (l & _ & _ & Hn). exfalso. apply Hn. reflexivity.
  Qed.
End Edits.
