(** Vocabulary the property theorems are phrased in, and the lemmas that lift
    results about one validator object to a schema with one keyword. *)
From Verif Require Import PyBase PyBaseFacts PyVal Errors Validators Keywords Spec LeafFacts Mono RunFacts KeywordFacts Master.
From Coq Require Import QArith ZifyBool.
Local Open Scope Z_scope.

(** the dot-joined path of a place *)
Fixpoint dotted (c : list pystr) : pystr :=
  match c with
  | [] => []
  | [k] => k
  | k :: c' => k ++ u "." ++ dotted c'
  end.
Lemma dotted_path c : ctx_path c = dotted c.
Proof.
  unfold ctx_path. induction c as [|k c IH]; [reflexivity|].
  destruct c as [|k' c]; [reflexivity|].
  change (join (u ".") (k :: k' :: c)) with (k ++ u "." ++ join (u ".") (k' :: c)).
  rewrite IH. reflexivity.
Qed.

(** no curly braces in a text, in the names along a place *)
Definition plain_text (s : pystr) : Prop := forall x, In x s -> x <> 123%N /\ x <> 125%N.
Definition plain (c : list pystr) : Prop := Forall plain_text c.

Lemma plain_text_app a b : plain_text a -> plain_text b -> plain_text (a ++ b).
Proof. intros Ha Hb x Hx. apply in_app_or in Hx as [Hx|Hx]; auto. Qed.
Lemma plain_dotted c : plain c -> plain_text (dotted c).
Proof.
  induction 1 as [|k c Hk Hc IH]; [intros x []|].
  destruct c as [|k' c]; [exact Hk|].
  change (dotted (k :: k' :: c)) with (k ++ u "." ++ dotted (k' :: c)).
  apply plain_text_app; [exact Hk|]. apply plain_text_app; [|exact IH].
  intros x [<-|[]]. split; discriminate.
Qed.
Lemma plain_text_b s : forallb (fun x => negb (x =? 123)%N && negb (x =? 125)%N) s = true -> plain_text s.
Proof.
  intros H x Hx. rewrite forallb_forall in H. specialize (H x Hx). lia.
Qed.
Lemma uint_chars_digits d : Forall (fun x => (48 <= x <= 57)%N) (uint_chars d).
Proof. induction d; simpl; constructor; try assumption; lia. Qed.
Lemma nat_str_digits i : Forall (fun x => (48 <= x <= 57)%N) (nat_str i).
Proof. apply uint_chars_digits. Qed.
Lemma plain_nat_str i : plain_text (nat_str i).
Proof.
  intros x Hx. pose proof (nat_str_digits i) as H. rewrite Forall_forall in H. specialize (H x Hx). lia.
Qed.
Lemma plain_snoc c k : plain c -> plain_text k -> plain (c ++ [k]).
Proof. intros Hc Hk. apply Forall_app. split; [exact Hc|constructor; [exact Hk|constructor]]. Qed.

(** ** Building an error succeeds at a plain place *)
Lemma scan_plain fs p t : plain_text p -> format_scan fs None (p ++ t) = format_scan fs None t.
Proof.
  induction p as [|x p IH]; intro H; [reflexivity|].
  destruct (H x (or_introl eq_refl)) as [H1 H2]. apply N.eqb_neq in H1, H2.
  simpl. unfold c_rb, c_lb. rewrite H1, H2. apply IH. intros y Hy; apply H; right; exact Hy.
Qed.
Lemma template_ok k : format_scan (fields k) None (template k) = Ok tt.
Proof. destruct k; reflexivity. Qed.
Lemma err_str_plain k p m : plain_text p ->
  format_scan (fields k) None m = Ok tt -> err_str k p m = Ok tt.
Proof.
  intros Hp Hm. unfold err_str, py_format.
  rewrite scan_plain by (apply plain_text_b; reflexivity).
  rewrite scan_plain by exact Hp.
  rewrite scan_plain by (apply plain_text_b; reflexivity). exact Hm.
Qed.
Lemma raise_plain {A} k p : plain_text p -> @raise_verr A k p = Raise (EValid (VErr k p)).
Proof.
  intro Hp. unfold raise_verr. destruct (by_args k); [reflexivity|].
  rewrite err_str_plain; [reflexivity|exact Hp|apply template_ok].
Qed.
Lemma raise_at {A} k c : plain c -> @raise_verr A k (ctx_path c) = Raise (EValid (VErr k (dotted c))).
Proof. intro Hc. rewrite dotted_path. apply raise_plain, plain_dotted, Hc. Qed.

Section Claims.
  Context {node : Type} (view : node -> res (nview node)) (strx : node -> pystr) (E : env).
  Variable voc : list akw.

  (** node [n] is a schema object with these members (possibly through a [$ref]) *)
  Definition obj_at (n : node) (items : list (pystr * node)) : Prop :=
    exists w, view n = Ok w /\ nv_val w = NObj items.
  (** node [m] is a plain (not a reference) value *)
  Definition val_at (m : node) (x : nval node) : Prop := view m = Ok (NView x false).

  (** [k] with operand [m] is the only keyword of the vocabulary used in [items] *)
  Definition lone (items : list (pystr * node)) (k : akw) (m : node) : Prop :=
    In k voc /\ dget (kw_key k) items = Some m /\
    forall k', In k' voc -> In (kw_key k') (dkeys items) -> k' = k.

  (** final outcome of [validate] (acceptance [Ok tt], or an exception) *)
  Definition Outcome (n : node) (v : pv) (c : ctx) (r : res unit) : Prop :=
    r <> OutOfFuel /\ exists fuel, validate view strx E voc fuel n v c = r.
  Definition Diverges (n : node) (v : pv) (c : ctx) : Prop :=
    forall fuel, validate view strx E voc fuel n v c = OutOfFuel.
  (** rejected with the error [kind] at the place [p] *)
  Definition RejectsWith (n : node) (v : pv) (c : ctx) (kind : vkind) (p : list pystr) : Prop :=
    Outcome n v c (Raise (EValid (VErr kind (dotted p)))).

  Lemma outcome_accepts n v c : Outcome n v c (Ok tt) <-> Accepts view strx E voc n v c.
  Proof. split; [intros [_ H]; exact H|]. intro H. split; [discriminate|exact H]. Qed.
  Lemma outcome_rejects n v c e : Outcome n v c (Raise (EValid e)) -> Rejects view strx E voc n v c.
  Proof. intros [_ [f H]]. exists f, e. exact H. Qed.
  Lemma rejects_outcome n v c : Rejects view strx E voc n v c -> exists e, Outcome n v c (Raise (EValid e)).
  Proof. intros (f & e & H). exists e. split; [discriminate|eauto]. Qed.
  Lemma outcome_fun n v c r1 r2 : Outcome n v c r1 -> Outcome n v c r2 -> r1 = r2.
  Proof.
    intros [H1 [f1 E1]] [H2 [f2 E2]].
    destruct (Nat.le_ge_cases f1 f2) as [Hle|Hle];
      pose proof (le_validate view strx E voc _ _ n v c Hle) as [Hx|Hx]; congruence.
  Qed.
  Lemma outcome_ev n v c r : Outcome n v c r -> ev (fun f => validate view strx E voc f n v c = r).
  Proof.
    intros [H [f Hf]]. exists f. intros f' Hle.
    destruct (le_validate view strx E voc f f' n v c Hle) as [Hx|Hx]; congruence.
  Qed.
  Lemma accepts_not_rejects n v c : Accepts view strx E voc n v c -> Rejects view strx E voc n v c -> False.
  Proof.
    intros Ha Hr. apply outcome_accepts in Ha. apply rejects_outcome in Hr as [e Hr].
    pose proof (outcome_fun _ _ _ _ _ Ha Hr). discriminate.
  Qed.

  Lemma lone_actives items k m : lone items k m ->
    exists l, actives items voc = l /\ In k l /\ forall k', In k' l -> k' = k.
  Proof.
    intros (Hv & Hm & Hu). exists (actives items voc). split; [reflexivity|].
    unfold actives. split.
    - apply filter_In. split; [exact Hv|]. apply dmem_dget. eauto.
    - intros k' H. apply filter_In in H as [H1 H2]. apply dmem_In in H2. auto.
  Qed.

  (** compiled table of a schema in which one keyword installs a validator and
      the others install none *)
  Lemma sole_compile_in n items k m o : wf_operands view items -> obj_at n items ->
    In k voc -> dget (kw_key k) items = Some m ->
    (forall k', In k' voc -> In (kw_key k') (dkeys items) ->
       k' = k \/ (is_own k' = true /\ apply view strx E k' items [] = Ok [])) ->
    is_own k = true ->
    apply view strx E k items [] = Ok (put k o []) ->
    compile view strx E voc n = Ok [(kw_key k, o)].
  Proof.
    intros Hwfi (w & Hn & Hw) Hv Hm Hu Hk Ha.
    assert (Hin : In k (actives items voc)).
    { apply filter_In. split; [exact Hv|]. apply dmem_dget. eauto. }
    assert (Hall : forall k', In k' (actives items voc) ->
              k' = k \/ (is_own k' = true /\ apply view strx E k' items [] = Ok [])).
    { intros k' H. apply filter_In in H as [H1 H2]. apply dmem_In in H2. auto. }
    assert (Hap : forall k', In k' (actives items voc) -> applies view strx E items k').
    { intros k' Hk'. destruct (Hall k' Hk') as [->|[_ H0]]; eexists; eassumption. }
    set (l := actives items voc) in *.
    assert (Hok : exists d, compile view strx E voc n = Ok d).
    { apply (compile_ok_iff view strx E items Hwfi w Hw voc n Hn). fold l. split.
      - apply Forall_forall. exact Hap.
      - intros (l1 & l2 & Heq & Hi & _). rewrite Heq in Hall, Hap.
        destruct (Hall KwPrefixItems) as [H1|[_ H1]]; [apply in_or_app; right; left; reflexivity| |].
        + destruct (Hall KwItems) as [H2|[_ H2]]; [apply in_or_app; left; exact Hi|congruence|].
          destruct (items_result view strx E items (Hap KwItems (in_or_app _ _ _ (or_introl Hi)))) as [x Hx].
          unfold own_result in Hx. rewrite H2 in Hx. discriminate.
        + assert (Hpi : In KwPrefixItems (l1 ++ KwPrefixItems :: l2))
            by (apply in_or_app; right; left; reflexivity).
          destruct (prefix_result view strx E items (Hap _ Hpi)) as [x Hx].
          unfold own_result in Hx. rewrite H1 in Hx. discriminate. }
    destruct Hok as [d Hd]. rewrite Hd. f_equal.
    destruct (compile_inv view strx E items Hwfi w Hw voc n d Hn Hd) as [[Hnd Hexp] _].
    fold l in Hexp.
    assert (Hown : own_result view strx E items k = Some o) by (apply own_result_put; exact Ha).
    assert (Hg : forall key, dget key d = if str_eqb key (kw_key k) then Some o else None).
    { intro key. rewrite Hexp. destruct (str_eqb_spec key (kw_key k)) as [->|Hne].
      - rewrite expected_own by exact Hk.
        assert (Hmm : akw_mem k (rev l) = true) by (apply akw_mem_In; rewrite <- in_rev; exact Hin).
        rewrite Hmm. exact Hown.
      - unfold expected.
        assert (Hisown : forall k', In k' (rev l) -> is_own k' = true).
        { intros k' Hk'. rewrite <- in_rev in Hk'. destruct (Hall k' Hk') as [->|[H _]]; assumption. }
        assert (Hf : existsb is_fam (rev l) = false).
        { destruct (existsb is_fam (rev l)) eqn:Hx; [|reflexivity]. apply existsb_exists in Hx as (k' & Hk' & Hf).
          apply Hisown in Hk'. unfold is_own in Hk'. rewrite Hf in Hk'. discriminate. }
        assert (Hc : existsb is_cond (rev l) = false).
        { destruct (existsb is_cond (rev l)) eqn:Hx; [|reflexivity]. apply existsb_exists in Hx as (k' & Hk' & Hf').
          apply Hisown in Hk'. unfold is_own in Hk'. rewrite Hf', andb_false_r in Hk'. discriminate. }
        rewrite Hf, Hc.
        destruct (str_eqb key (u "properties")); [reflexivity|].
        destruct (str_eqb key (u "if")); [reflexivity|].
        destruct (find _ _) as [k'|] eqn:Hfi; [|reflexivity].
        apply find_some in Hfi as [Hin' Heq]. apply filter_In in Hin' as [Hin' _].
        rewrite <- in_rev in Hin'. apply str_eqb_eq in Heq.
        destruct (Hall k' Hin') as [->|[_ H0]]; [contradiction|]. unfold own_result. rewrite H0. reflexivity. }
    destruct d as [|[k1 o1] d].
    - specialize (Hg (kw_key k)). rewrite str_eqb_refl in Hg. discriminate.
    - assert (Hk1 : k1 = kw_key k /\ o1 = o).
      { specialize (Hg k1). simpl in Hg. rewrite str_eqb_refl in Hg.
        destruct (str_eqb_spec k1 (kw_key k)); [|discriminate]. split; congruence. }
      destruct Hk1 as [-> ->]. destruct d as [|[k2 o2] d]; [reflexivity|exfalso].
      simpl in Hnd. inversion Hnd as [|? ? Hnot _]; subst.
      specialize (Hg k2). assert (Hne : k2 <> kw_key k) by (intros ->; apply Hnot; left; reflexivity).
      simpl in Hg. rewrite str_eqb_refl in Hg.
      destruct (str_eqb_spec k2 (kw_key k)); [contradiction|discriminate].
  Qed.

  Hypothesis Hwf : wf_view view.
  Lemma sole_compile n items k m o : obj_at n items ->
    In k voc -> dget (kw_key k) items = Some m ->
    (forall k', In k' voc -> In (kw_key k') (dkeys items) ->
       k' = k \/ (is_own k' = true /\ apply view strx E k' items [] = Ok [])) ->
    is_own k = true ->
    apply view strx E k items [] = Ok (put k o []) ->
    compile view strx E voc n = Ok [(kw_key k, o)].
  Proof. apply sole_compile_in. intros k0 n' w' m0 _ H1 H2. exact (Hwf n' w' m0 H1 H2). Qed.
  Lemma lone_compile n items k m o : obj_at n items -> lone items k m -> is_own k = true ->
    apply view strx E k items [] = Ok (put k o []) ->
    compile view strx E voc n = Ok [(kw_key k, o)].
  Proof.
    intros Hn (Hv & Hm & Hu) Hk Ha. apply (sole_compile n items k m o Hn Hv Hm); auto.
  Qed.

  Lemma for_each_one {A} (f : A -> res unit) x : for_each f [x] = f x.
  Proof. simpl. destruct (f x) as [[]| |]; reflexivity. Qed.

  Lemma lone_validate n items k m o f v c : obj_at n items -> lone items k m -> is_own k = true ->
    apply view strx E k items [] = Ok (put k o []) ->
    validate view strx E voc (S f) n v c = run_vobj view E (validate view strx E voc f) f o v c.
  Proof.
    intros Hn Hl Hk Ha. cbn [validate]. rewrite (lone_compile n items k m o Hn Hl Hk Ha).
    cbn [bind]. rewrite for_each_one. reflexivity.
  Qed.

  (** acceptance of a one-keyword schema is the demand of that keyword *)
  Lemma lone_accepts n items k m w v c : obj_at n items -> lone items k m -> view m = Ok w ->
    applies view strx E items k ->
    Accepts view strx E voc n v c <->
    demands view strx E voc (Accepts view strx E voc) (Rejects view strx E voc) items k m (nv_val w) v c.
  Proof.
    intros (w0 & Hn & Hw0) Hl Hm Ha.
    assert (Hwfi : wf_operands view items) by (intros k0 n' w' m0 _ H1 H2; exact (Hwf n' w' m0 H1 H2)).
    destruct (lone_actives items k m Hl) as (l & Hact & Hin & Hall).
    destruct Hl as (Hv & Hk & Hu).
    rewrite (accepts_object view strx E voc Hwf n w0 items v c Hn Hw0). split.
    - intros [_ H]. exact (H k m w Hv Hk Hm).
    - intro H. split.
      + apply (compile_ok_iff view strx E items Hwfi w0 Hw0 voc n Hn). rewrite Hact. split.
        * apply Forall_forall. intros k' Hk'. rewrite (Hall k' Hk'). exact Ha.
        * intros (l1 & l2 & Heq & Hi & _). rewrite Heq in Hall.
          assert (H1 : KwPrefixItems = k) by (apply Hall, in_or_app; right; left; reflexivity).
          assert (H2 : KwItems = k) by (apply Hall, in_or_app; left; exact Hi). congruence.
      + intros k' m' w' Hv' Hk' Hm'.
        assert (k' = k).
        { apply Hu; [exact Hv'|]. apply dget_In, (in_map fst) in Hk'. exact Hk'. }
        subst k'. rewrite Hk in Hk'. injection Hk' as <-. rewrite Hm in Hm'. injection Hm' as <-. exact H.
  Qed.

  (** a leaf keyword: outcome decided by the validator alone *)
  Lemma lone_leaf n items k m o v c r : obj_at n items -> lone items k m -> is_own k = true ->
    apply view strx E k items [] = Ok (put k o []) ->
    (forall rec lf, run_vobj view E rec lf o v c = r) -> r <> OutOfFuel ->
    Outcome n v c r.
  Proof.
    intros Hn Hl Hk Ha Hr Hne. split; [exact Hne|]. exists 1%nat.
    rewrite (lone_validate n items k m o 0 v c Hn Hl Hk Ha). apply Hr.
  Qed.
  Lemma lone_ev n items k m o v c r : obj_at n items -> lone items k m -> is_own k = true ->
    apply view strx E k items [] = Ok (put k o []) -> r <> OutOfFuel ->
    ev (fun f => run_vobj view E (validate view strx E voc f) f o v c = r) ->
    Outcome n v c r.
  Proof.
    intros Hn Hl Hk Ha Hne [f Hf]. split; [exact Hne|]. exists (S f).
    rewrite (lone_validate n items k m o f v c Hn Hl Hk Ha). apply Hf. lia.
  Qed.

  Lemma val_at_opnd items k m x : dget (kw_key k) items = Some m -> val_at m x ->
    opnd view items (kw_key k) = Ok (NView x false) /\ opnd_node items (kw_key k) = Ok m.
  Proof. intros Hm Hx. unfold opnd, opnd_node. rewrite Hm. auto. Qed.
End Claims.

(** ** Plain JSON documents: finite trees without references *)
Inductive jt : Type :=
| TNull | TBool (b : bool) | TNum (d : dec) | TStr (s : pystr)
| TArr (l : list jt) | TObj (items : list (pystr * jt)).
Definition tview (t : jt) : res (nview jt) :=
  Ok (NView (match t with
             | TNull => NNull | TBool b => NBool b | TNum d => NNum d | TStr s => NStr s
             | TArr l => NArr l
             | TObj it => NObj (fold_left (fun acc kn => dset (fst kn) (snd kn) acc) it [])
             end) false).
Lemma NoDup_fold_dset {A} (it d : list (pystr * A)) : NoDup (dkeys d) ->
  NoDup (dkeys (fold_left (fun acc kn => dset (fst kn) (snd kn) acc) it d)).
Proof.
  revert d; induction it as [|[k x] it IH]; intros d H; simpl; [exact H|]. apply IH, NoDup_dset, H.
Qed.
Lemma tview_wf : wf_view tview.
Proof.
  intros n w m H Hm. unfold tview in H. injection H as <-. destruct n; try discriminate.
  simpl in Hm. injection Hm as <-. apply NoDup_fold_dset. constructor.
Qed.
