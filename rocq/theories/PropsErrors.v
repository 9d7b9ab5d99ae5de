(** Properties C33, C34 and C36: where an error says it happened, which
    exception leaves [validate], and rendering it. *)
From Verif Require Import PyBase PyBaseFacts PyVal Errors Validators Keywords Spec LeafFacts Mono RunFacts KeywordFacts Master Claims ScalarFacts RejectFacts OrderFacts PropsComposite.
From Coq Require Import QArith Qabs ZifyBool.
Local Open Scope Z_scope.

(** ** Places *)
(** [leads v p y]: following the member names / indices [p] from [v] gives [y] *)
Inductive leads : pv -> list pystr -> pv -> Prop :=
| leads_here v : leads v [] v
| leads_member d k x p y : In (k, x) d -> leads x p y -> leads (VDict d) (k :: p) y
| leads_item l i x p y : nth_error l i = Some x -> leads x p y -> leads (VList l) (nat_str i :: p) y.

(** what [validate] looks at: besides the sub-instances, the member names (for
    [propertyNames], as strings at the member's place) and a null at the
    positions missing in a tuple *)
Inductive looked (voc : list akw) : pv -> list pystr -> pv -> Prop :=
| looked_here v : looked voc v [] v
| looked_member d k x p y : In (k, x) d -> looked voc x p y -> looked voc (VDict d) (k :: p) y
| looked_item l i x p y : nth_error l i = Some x -> looked voc x p y -> looked voc (VList l) (nat_str i :: p) y
| looked_name d k x p y : In KwPropertyNames voc -> In (k, x) d -> looked voc (VStr k) p y ->
    looked voc (VDict d) (k :: p) y
| looked_absent l i p y : In KwItems voc \/ In KwPrefixItems voc -> (List.length l <= i)%nat ->
    looked voc VNone p y -> looked voc (VList l) (nat_str i :: p) y.

Lemma rem_not_multiple x d : dec_rem_is_zero x d = Ok false -> ~ exists z, (dec_q x == inject_Z z * dec_q d)%Q.
Proof.
  intros Hr [z Hz].
  destruct (Qeq_dec (dec_q d) 0) as [Hd|Hd].
  { rewrite (dec_rem_raise x d (or_introl Hd)) in Hr. discriminate. }
  destruct (Z.lt_ge_cases (Z.abs z) (10 ^ 28)) as [Hlt|Hge].
  - assert (dec_rem_is_zero x d = Ok true) by (apply dec_rem_ok; exists z; auto). congruence.
  - rewrite (dec_rem_raise x d) in Hr; [discriminate|]. right. rewrite Hz, Qabs_Qmult.
    apply Qmult_le_compat_r; [|apply Qabs_nonneg]. rewrite Zabs_Qabs', <- Zle_Qle. exact Hge.
Qed.
(** the value [y] deserves the complaint [k] *)
Definition blames (E : env) (k : vkind) (y : pv) : Prop :=
  match k with
  | KType ts => ~ exists t, In t ts /\ has_type y t
  | KMinLength n | KMinItems n | KMinProps n => exists s, size_is y s /\ s < n
  | KMaxLength n | KMaxItems n | KMaxProps n => exists s, size_is y s /\ n < s
  | KRequired p => ~ has_name y p
  | KDependent p q => exists d, y = VDict d /\ In p (dkeys d) /\ ~ In q (dkeys d)
  | KMinimum d => exists q, value_is y q /\ (q <= dec_q d)%Q
  | KMaximum d => exists q, value_is y q /\ (dec_q d <= q)%Q
  | KMultipleOf d => exists x, decimal_text E y x /\ ~ exists z, (dec_q x == inject_Z z * dec_q d)%Q
  | KFormat f => (exists test, fmt E f = Some test /\ test y = Ok false) \/
                 (exists s, y = VStr s /\ re_search E f s = false)
  | KMinContains n => exists l, iterable y l
  | KMaxContains n => exists l, iterable y l /\ n < Z.of_nat (List.length l)
  | KUnique => False
  | KFail | KNot | KOneOf | KEnum | KConst => True
  end.

(** what the path of an error can be *)
Inductive located (E : env) (voc : list akw) (c : ctx) (v : pv) : verr -> Prop :=
| at_place p y k : looked voc v p y -> blames E k y -> located E voc c v (VErr k (dotted (c ++ p)))
| at_repeat p y l i : In KwUniqueItems voc -> looked voc v p y -> iterable y l -> first_repeat l i ->
    located E voc c v (VErr KUnique (dotted (c ++ p) ++ nat_str i))
| place_lost p y : In KwItems voc \/ In KwPrefixItems voc -> looked voc v p y -> (forall l, y <> VList l) ->
    located E voc c v (VErr (KType [u "array"]) []).

(** the helpers never raise a [ValidationError] of their own *)
Definition quiet_env (E : env) : Prop :=
  (forall f test v e, fmt E f = Some test -> test v <> Raise (EValid e)) /\
  (forall s e, dec_of_str E s <> Raise (EValid e)).

(** what formatting a text can raise *)
Definition format_error (e : exn) : Prop := e = EValue \/ e = EIndex \/ (exists name, e = EKey name) \/ e = EUnmodelled.
Lemma field_raises fs name e : field_outcome fs name = Raise e -> format_error e.
Proof.
  assert (Hi : forall s acc e, get_integer acc s = Raise e -> format_error e).
  { induction s as [|x s IH]; intros acc x'; cbn [get_integer]; [discriminate|].
    destruct (is_digit x); [destruct (_ <? _)%N; [intros [= <-]; left; reflexivity|apply IH]|destruct (_ <=? _)%N; intros [= <-]; unfold format_error; tauto]. }
  unfold field_outcome, positional. destruct (first_part name) as [|x r].
  { intros [= <-]. unfold format_error. tauto. }
  specialize (Hi (x :: r) 0%N). destruct (get_integer 0%N (x :: r)) as [[i|]|e'|]; cbn [bind]; [| |intros [= <-]; apply Hi; reflexivity|discriminate].
  - intros [= <-]. unfold format_error. tauto.
  - destruct (str_mem _ _); [destruct (existsb _ _)|]; intros [= <-]; unfold format_error; eauto.
Qed.
Lemma scan_raises fs t i e : format_scan fs i t = Raise e -> format_error e.
Proof.
  assert (V : format_error EValue) by (left; reflexivity). assert (M : format_error EUnmodelled) by (unfold format_error; tauto).
  assert (Hlen : forall n t, (List.length t <= n)%nat -> forall i, format_scan fs i t = Raise e -> format_error e).
  { induction n as [|n IH]; intros s Hs j.
    - destruct s; [|simpl in Hs; lia]. destruct j as [acc|]; [intros [= <-]; exact V|discriminate].
    - destruct s as [|x s]; [destruct j as [acc|]; [intros [= <-]; exact V|discriminate]|].
      cbn [List.length] in Hs. destruct j as [acc|]; cbn [format_scan].
      + destruct (x =? c_lb)%N; [intros [= <-]; exact V|]. pose proof (field_raises fs (rev acc)) as Hf.
        destruct (x =? c_rb)%N; [destruct (field_outcome fs (rev acc)) as [[]|e'|]; cbn [bind]; [apply IH; lia|intros [= ->]; apply Hf; reflexivity|discriminate]|].
        destruct (goes_on x); [|apply IH; lia].
        destruct (name_ends _ _); [destruct (field_outcome fs (rev acc)) as [[]|e'|]; cbn [bind]; [intros [= <-]; exact M|intros [= ->]; apply Hf; reflexivity|discriminate]|intros [= <-]; exact V].
      + destruct (x =? c_rb)%N.
        { destruct s as [|y s]; [intros [= <-]; exact V|]. destruct (y =? c_rb)%N; [|intros [= <-]; exact V].
          apply IH; cbn [List.length] in Hs; lia. }
        destruct (x =? c_lb)%N; [|apply IH; lia].
        destruct s as [|y s]; [intros [= <-]; exact V|].
        destruct (y =? c_lb)%N; apply IH; cbn [List.length] in *; lia. }
  apply (Hlen (List.length t)). lia.
Qed.
Lemma format_not_valid fs i t e : format_scan fs i t <> Raise (EValid e).
Proof. intro H. apply scan_raises in H. destruct H as [H|[H|[[x H]|H]]]; discriminate. Qed.
Lemma raise_verr_is {A} k p e : @raise_verr A k p = Raise (EValid e) -> e = VErr k p.
Proof.
  unfold raise_verr. destruct (by_args k); [congruence|]. unfold err_str, py_format.
  destruct (format_scan _ _ _) as [[]|x|] eqn:Hf; cbn [bind]; try congruence.
  intros [= ->]. exfalso. exact (format_not_valid _ _ _ _ Hf).
Qed.
(** building an error either yields that error or fails while formatting *)
Lemma raise_verr_err {A} k p : by_args k = false ->
  @raise_verr A k p = Raise (EValid (VErr k p)) \/ (exists e, err_str k p (template k) = Raise e /\ @raise_verr A k p = Raise e).
Proof.
  intro Hb. destruct (@raise_verr_cases A k p) as [e He]. unfold raise_verr in *. rewrite Hb in *.
  destruct (err_str k p (template k)) as [[]|x|]; cbn [bind] in *; [left; reflexivity| |discriminate].
  right. exists x. auto.
Qed.

Section Path.
  Context {node : Type} (view : node -> res (nview node)) (strx : node -> pystr) (E : env).
  Variable voc : list akw.
  Hypothesis Hquiet : quiet_env E.
  Hypothesis Hview : forall n e, view n <> Raise (EValid e).
  Notation located := (located E voc).
  Notation looked := (looked voc).

  (** the validators a vocabulary can produce *)
  Definition sanctioned (o : vobj node node) : Prop :=
    match o with
    | VUnique => In KwUniqueItems voc
    | VArray _ _ => In KwItems voc \/ In KwPrefixItems voc
    | VObject o => ov_names o <> None -> In KwPropertyNames voc
    | _ => True
    end.

  Lemma located_here c v k : blames E k v -> located c v (VErr k (ctx_path c)).
  Proof.
    intro H. rewrite dotted_path. rewrite <- (app_nil_r c) at 2. apply at_place with (y := v); [constructor|exact H].
  Qed.
  Lemma located_down c v q x e : (forall p y, looked x p y -> looked v (q :: p) y) ->
    located (c ++ [q]) x e -> located c v e.
  Proof.
    intros H Hl. destruct Hl as [p y k Hp Hb|p y l i Hu Hp Hl Hr|p y Hv Hp Hn].
    - rewrite <- app_assoc. exact (at_place E voc c v _ y k (H _ _ Hp) Hb).
    - rewrite <- app_assoc. exact (at_repeat E voc c v _ y l i Hu (H _ _ Hp) Hl Hr).
    - exact (place_lost E voc c v _ y Hv (H _ _ Hp) Hn).
  Qed.

  Section Fixed.
    Variable rec : node -> pv -> ctx -> res unit.
    Hypothesis Hrec : forall n v c e, rec n v c = Raise (EValid e) -> located c v e.

    Lemma eq_node_quiet v n e : eq_node view v n <> Raise (EValid e).
    Proof.
      revert n. induction v as [v Hnl Hnd|l IH|d IH] using pv_ind_deep; intros n.
      - assert (Hg : eq_node view v n = (w <- view n ;;
           match nv_val w with
           | NNull => Ok (match v with VNone => true | _ => false end)
           | NStr s => Ok (match v with VStr t => str_eqb s t | _ => false end)
           | NBool b => match v with VBool b' => Ok (Bool.eqb b b') | _ => Raise EType end
           | NNum d =>
               match v with
               | VFloat f => Ok (Qeq_bool (dec_q d) (dec_q (frepr f)))
               | VInt _ | VBool _ | VDec _ => Ok (opt_q_eqb (Some (dec_q d)) (num_q v))
               | _ => Raise EType
               end
           | _ => Ok false end)).
        { destruct v; try reflexivity; exfalso; [eapply Hnl|eapply Hnd]; reflexivity. }
        rewrite Hg. destruct (view n) as [w|x|] eqn:Hw; cbn [bind]; [| |discriminate].
        + destruct (nv_val w); destruct v; discriminate.
        + intros [= ->]. exact (Hview _ _ Hw).
      - cbn [eq_node]. destruct (view n) as [w|x|] eqn:Hw; cbn [bind]; [| |discriminate].
        2: { intros [= ->]. exact (Hview _ _ Hw). }
        destruct (nv_val w) as [| | | |ns|]; try discriminate.
        destruct (Nat.eqb _ _); [|discriminate]. clear -IH.
        revert ns; induction IH as [|x l Hx IH IHl]; intros [|m ns]; try discriminate.
        destruct (eq_node view x m) as [[|]|x0|] eqn:Hm; cbn [bind]; try discriminate; [apply IHl|].
        intros [= ->]. exact (Hx _ Hm).
      - cbn [eq_node]. destruct (view n) as [w|x|] eqn:Hw; cbn [bind]; [| |discriminate].
        2: { intros [= ->]. exact (Hview _ _ Hw). }
        destruct (nv_val w) as [| | | | |its]; try discriminate.
        destruct (Nat.eqb _ _); [|discriminate]. cbv zeta. clear -IH.
        assert (Ht : forall k t m, dget k (map (fun '(k, x) => (k, eq_node view x)) d) = Some t -> t m <> Raise (EValid e)).
        { intros k t m Hk. apply dget_In, in_map_iff in Hk as ([k' x] & [= <- <-] & Hin).
          rewrite Forall_forall in IH. exact (IH _ Hin m). }
        revert Ht. generalize (map (fun '(k, x) => (k, eq_node view x)) d) as tests. intros tests Ht.
        induction its as [|[k m] its IHi]; [discriminate|]. destruct (dget k tests) as [t|] eqn:Hk; [|discriminate].
        destruct (t m) as [[|]|x0|] eqn:Hm; cbn [bind]; try discriminate; [apply IHi|].
        intros [= ->]. exact (Ht _ _ _ Hk Hm).
    Qed.
    Lemma eq_raw_quiet x v e : eq_raw view x v <> Raise (EValid e).
    Proof.
      destruct x as [| | | |ns|its]; cbn [eq_raw]; try discriminate.
      - destruct v; try discriminate. destruct (Nat.eqb _ _); [|discriminate].
        revert ns; induction l as [|x l IHl]; intros [|m ns]; try discriminate.
        destruct (eq_node view x m) as [[|]|x0|] eqn:Hm; cbn [bind]; try discriminate; [apply IHl|].
        intros [= ->]. exact (eq_node_quiet _ _ _ Hm).
      - destruct v; try discriminate. destruct (Nat.eqb _ _); [|discriminate].
        induction its as [|[k m] its IHi]; [discriminate|]. destruct (dget k d) as [t|] eqn:Hk; [|discriminate].
        destruct (eq_node view t m) as [[|]|x0|] eqn:Hm; cbn [bind]; try discriminate; [apply IHi|].
        intros [= ->]. exact (eq_node_quiet _ _ _ Hm).
    Qed.
    Lemma unique_loop_raise c e l : forall seen i,
      unique_loop seen i l c = Raise (EValid e) ->
      exists pre y post, l = pre ++ y :: post /\ e = VErr KUnique (ctx_path c ++ nat_str (i + List.length pre)) /\
        (exists s, (In s seen \/ In s pre) /\ py_eq s y = true) /\
        all_distinct pre /\ (forall s x, In s seen -> In x pre -> py_eq s x = false) /\
        (forall x, In x (pre ++ [y]) -> hashable x = true).
    Proof.
      induction l as [|z l IH]; intros sn k H; cbn [unique_loop] in H; [discriminate|].
      destruct (hashable z) eqn:Hz; [|discriminate]. destruct (existsb (fun y => py_eq y z) sn) eqn:Hex.
      - apply raise_verr_is in H. subst e. exists [], z, l. split; [reflexivity|]. split; [rewrite Nat.add_0_r; reflexivity|].
        apply existsb_exists in Hex as (s & Hs & He). split; [eauto|]. split; [intros a b ? ? _ Ha; destruct a; discriminate|].
        split; [intros ? ? _ []|]. intros x [<-|[]]; exact Hz.
      - destruct (IH (z :: sn) (S k) H) as (pre & y & post & -> & -> & (s & Hs & Hse) & Hd & Hn & Hh).
        exists (z :: pre), y, post. split; [reflexivity|]. split; [cbn [List.length]; do 2 f_equal; f_equal; lia|].
        split; [exists s; split; [|exact Hse]; destruct Hs as [[<-|Hs]|Hs]; [right; left; reflexivity|left; exact Hs|right; right; exact Hs]|].
        split; [|split].
        + intros a b p q Hab Ha Hb. destruct b as [|b]; [lia|]. simpl in Hb. destruct a as [|a]; simpl in Ha.
          * injection Ha as <-. apply Hn; [left; reflexivity|eapply nth_error_In, Hb].
          * apply (Hd a b); [lia|assumption|assumption].
        + intros s0 z0 Hs0 [<-|Hz0].
          * destruct (py_eq s0 z) eqn:He; [|reflexivity].
            assert (existsb (fun y => py_eq y z) sn = true) by (apply existsb_exists; eauto). congruence.
          * apply Hn; [right; exact Hs0|exact Hz0].
        + intros x [<-|Hx]; [exact Hz|]. apply Hh, Hx.
    Qed.
    Lemma prefix_located lf ps vals i c e : In KwItems voc \/ In KwPrefixItems voc ->
      prefix_loop rec lf ps vals i c = Raise (EValid e) -> located c (VList vals) e.
    Proof.
      intro Hv. revert i; induction lf as [|lf IH]; intros i; cbn [prefix_loop]; [discriminate|]. intro H.
      destruct (nth_error ps i) as [p|]; [|discriminate].
      destruct (nth_error vals i) as [x|] eqn:Hx; unfold ctx_add in H.
      - destruct (rec p x (c ++ [nat_str i])) as [[]|e'|] eqn:Hr; cbn [bind] in H; [exact (IH _ H)| |discriminate].
        injection H as ->. eapply located_down; [|exact (Hrec _ _ _ _ Hr)]. intros q y Hq. eapply looked_item; eassumption.
      - destruct (rec p VNone (c ++ [nat_str i])) as [[]|e'|] eqn:Hr; cbn [bind] in H; [exact (IH _ H)| |discriminate].
        injection H as ->. eapply located_down; [|exact (Hrec _ _ _ _ Hr)]. intros q y Hq.
        apply looked_absent; [exact Hv|apply nth_error_None, Hx|exact Hq].
    Qed.
    Lemma member_located o c key x d e : In (key, x) d -> (ov_names o <> None -> In KwPropertyNames voc) ->
      member_validate E rec o c (key, x) = Raise (EValid e) -> located c (VDict d) e.
    Proof.
      intros Hin Hs. unfold member_validate.
      assert (Hdown : forall e, located (c ++ [key]) x e -> located c (VDict d) e).
      { intros e0 H. eapply located_down; [|exact H]. intros p y Hp. eapply looked_member; eassumption. }
      assert (Hrest : match dget key (ov_data o) with
        | Some n => rec n x (ctx_add c key)
        | None =>
            evaluated <- (match ov_pat o with
                          | Some pats => pattern_loop E rec pats key x c false
                          | None => Ok false
                          end) ;;
            if evaluated then Ok tt
            else match ov_addl o with
                 | Some s => run_sub rec s x (ctx_add c key)
                 | None => if ov_uneval o then raise_verr KFail (ctx_path (ctx_add c key)) else Ok tt
                 end
        end = Raise (EValid e) -> located c (VDict d) e).
      { destruct (dget key (ov_data o)) as [n|]; [intro H; apply Hdown, (Hrec _ _ _ _ H)|].
        destruct (match ov_pat o with Some pats => pattern_loop E rec pats key x c false | None => Ok false end) as [b|e'|] eqn:Hl;
          cbn [bind]; [| |discriminate].
        - destruct b; [discriminate|]. destruct (ov_addl o) as [[|n]|].
          + cbn [run_sub]. intro H. apply raise_verr_is in H. subst e. apply Hdown. apply located_here. exact I.
          + cbn [run_sub]. intro H. apply Hdown, (Hrec _ _ _ _ H).
          + destruct (ov_uneval o); [|discriminate]. intro H. apply raise_verr_is in H. subst e. apply Hdown. apply located_here. exact I.
        - intros [= ->]. destruct (ov_pat o) as [pats|]; [|discriminate].
          apply pattern_loop_reject in Hl as (p & n & _ & _ & Hr). apply Hdown, (Hrec _ _ _ _ Hr). }
      destruct (ov_names o) as [s|]; [|exact Hrest].
      destruct (rec s (VStr key) (ctx_add c key)) as [[]|e'|] eqn:Hr; cbn [bind]; [exact Hrest| |discriminate].
      intros [= ->]. eapply located_down; [|exact (Hrec _ _ _ _ Hr)].
      intros p y Hp. eapply looked_name; [apply Hs; discriminate|exact Hin|exact Hp].
    Qed.
    Lemma bind_if_raise (m : res bool) (a : bool) k p e :
      (forall x, m <> Raise (EValid x)) ->
      (b <- m ;; if b then raise_verr k p else Ok tt) = Raise (EValid e) -> m = Ok true /\ e = VErr k p.
    Proof.
      intros Hm. destruct m as [[|]|x|]; cbn [bind]; try discriminate.
      - intro H. split; [reflexivity|]. exact (raise_verr_is _ _ _ H).
      - intros [= ->]. exfalso. exact (Hm e eq_refl).
    Qed.
    Lemma cmp_quiet v d e : py_le_dec v d <> Raise (EValid e) /\ py_lt_dec v d <> Raise (EValid e) /\
      py_ge_dec v d <> Raise (EValid e) /\ py_gt_dec v d <> Raise (EValid e).
    Proof. unfold py_le_dec, py_lt_dec, py_ge_dec, py_gt_dec. destruct (num_q v); repeat split; discriminate. Qed.
    Lemma cmp_above v d : py_ge_dec v d = Ok true \/ py_gt_dec v d = Ok true -> exists q, value_is v q /\ (dec_q d <= q)%Q.
    Proof.
      unfold py_ge_dec, py_gt_dec. setoid_rewrite value_is_num. destruct (num_q v) as [q|]; [|intros [H|H]; discriminate].
      intros [H|H]; injection H as H; exists q; (split; [reflexivity|]); [apply Qle_bool_iff, H|].
      apply negb_true_iff in H. destruct (Qlt_le_dec (dec_q d) q) as [L|L]; [apply Qlt_le_weak, L|].
      apply Qle_bool_iff in L. congruence.
    Qed.
    Lemma cmp_below v d : py_le_dec v d = Ok true \/ py_lt_dec v d = Ok true -> exists q, value_is v q /\ (q <= dec_q d)%Q.
    Proof.
      unfold py_le_dec, py_lt_dec. setoid_rewrite value_is_num. destruct (num_q v) as [q|]; [|intros [H|H]; discriminate].
      intros [H|H]; injection H as H; exists q; (split; [reflexivity|]); [apply Qle_bool_iff, H|].
      apply negb_true_iff in H. destruct (Qlt_le_dec q (dec_q d)) as [L|L]; [apply Qlt_le_weak, L|].
      apply Qle_bool_iff in L. congruence.
    Qed.
    Lemma anyof_located l v c last e : (forall e', last = Some e' -> located c v e') ->
      anyof_loop rec l v c last = Raise (EValid e) -> located c v e.
    Proof.
      revert last; induction l as [|n l IH]; intros last Hl; cbn [anyof_loop].
      - destruct last as [e'|]; [|discriminate]. intros [= <-]. apply Hl. reflexivity.
      - destruct (try_valid (rec n v c)) as [[e'|]|e'|] eqn:Ht; cbn [bind]; try discriminate.
        + apply try_some in Ht. apply IH. intros e2 [= <-]. exact (Hrec _ _ _ _ Ht).
        + intros [= ->]. exfalso. exact (try_raise _ _ Ht).
    Qed.
    Lemma oneof_located l v c k last e : (forall e', last = Some e' -> located c v e') ->
      oneof_loop rec l v c k last = Raise (EValid e) -> located c v e.
    Proof.
      revert k last; induction l as [|n l IH]; intros k last Hl; cbn [oneof_loop].
      - destruct k as [|[|k]]; [destruct last as [e'|]; [|discriminate]; intros [= <-]; apply Hl; reflexivity|discriminate|].
        intro H. apply raise_verr_is in H. subst e. apply located_here. exact I.
      - destruct (try_valid (rec n v c)) as [[e'|]|e'|] eqn:Ht; cbn [bind]; try discriminate.
        + apply try_some in Ht. apply IH. intros e2 [= <-]. exact (Hrec _ _ _ _ Ht).
        + apply IH. exact Hl.
        + intros [= ->]. exfalso. exact (try_raise _ _ Ht).
    Qed.
    Lemma min_len_located k n v c e : (forall y, blames E k y <-> exists s, size_is y s /\ s < n) ->
      min_len_validate k n v c = Raise (EValid e) -> located c v e.
    Proof.
      intros Hb. unfold min_len_validate. destruct (py_len v) as [s|x|] eqn:Hs; cbn [bind]; try discriminate.
      - destruct (s >=? n) eqn:Hge; [discriminate|]. intro H. apply raise_verr_is in H. subst e. apply located_here, Hb.
        exists s. split; [apply py_len_size, Hs|lia].
      - intros [= ->]. destruct v; discriminate.
    Qed.
    Lemma max_len_located k n v c e : (forall y, blames E k y <-> exists s, size_is y s /\ n < s) ->
      max_len_validate k n v c = Raise (EValid e) -> located c v e.
    Proof.
      intros Hb. unfold max_len_validate. destruct (py_len v) as [s|x|] eqn:Hs; cbn [bind]; try discriminate.
      - destruct (s <=? n) eqn:Hge; [discriminate|]. intro H. apply raise_verr_is in H. subst e. apply located_here, Hb.
        exists s. split; [apply py_len_size, Hs|lia].
      - intros [= ->]. destruct v; discriminate.
    Qed.
    Lemma tweak_quiet l v e : enum_tweak_loop view l v <> Raise (EValid e).
    Proof.
      induction l as [|x l IH]; cbn [enum_tweak_loop]; [discriminate|].
      destruct (eq_raw view x v) as [[|]|x0|] eqn:He; cbn [bind]; try discriminate.
      - destruct (is_nbool x || is_bool v); [|discriminate]. destruct (is_nbool x && is_bool v); [discriminate|exact IH].
      - exact IH.
      - intros [= ->]. exact (eq_raw_quiet _ _ _ He).
    Qed.
    Lemma enum_in_quiet l v e : enum_in view l v <> Raise (EValid e).
    Proof.
      induction l as [|x l IH]; cbn [enum_in]; [discriminate|].
      destruct (eq_raw view x v) as [[|]|x0|] eqn:He; cbn [bind]; try discriminate; [exact IH|].
      intros [= ->]. exact (eq_raw_quiet _ _ _ He).
    Qed.
    Lemma count_le n l k : count_valid rec n l = Ok k -> k <= Z.of_nat (List.length l).
    Proof.
      revert k; induction l as [|x l IH]; intros k; cbn [count_valid].
      - intro H. assert (k = 0) by congruence. subst k. simpl. lia.
      - intro H. apply bind_Ok in H as (r & _ & H). apply bind_Ok in H as (k' & Hk & H).
        specialize (IH _ Hk). cbn [List.length]. rewrite Nat2Z.inj_succ.
        destruct r; [assert (k = k') by congruence|assert (k = 1 + k') by congruence]; lia.
    Qed.

    Lemma run_located lf o v c e : sanctioned o -> run_vobj view E rec lf o v c = Raise (EValid e) -> located c v e.
    Proof.
      intros Hs H. destruct o; cbn [run_vobj sanctioned] in *.
      - apply raise_verr_is in H. subst e. apply located_here. exact I.
      - unfold type_validate in H. destruct (str_mem (type_name v) expected) eqn:H1; [discriminate|].
        destruct (str_eqb (type_name v) (u "integer") && str_mem (u "number") expected) eqn:H2; [discriminate|].
        apply raise_verr_is in H. subst e. apply located_here. intros (t & Ht & Hty). apply type_name_has in Hty.
        apply str_mem_false in H1. destruct Hty as [->|[Hty ->]]; [exact (H1 Ht)|].
        rewrite Hty, str_eqb_refl in H2. apply str_mem_In in Ht. rewrite Ht in H2. discriminate.
      - unfold enum_validate in H. destruct (is_bool v && negb (existsb is_nbool expected)).
        + apply raise_verr_is in H. subst e. apply located_here. exact I.
        + destruct (if existsb is_nbool expected && py_eq v (VInt 1) || py_eq v (VInt 0)
                    then enum_tweak_loop view expected v else enum_in view expected v) as [[|]|x|] eqn:Hx; cbn [bind] in H; try discriminate.
          * apply raise_verr_is in H. subst e. apply located_here. exact I.
          * injection H as ->. exfalso. destruct (_ || _); [exact (tweak_quiet _ _ _ Hx)|exact (enum_in_quiet _ _ _ Hx)].
      - unfold const_validate in H. destruct (_ && _).
        + apply raise_verr_is in H. subst e. apply located_here. exact I.
        + destruct (eq_raw view expected v) as [[|]|x|] eqn:Hx; cbn [bind] in H; try discriminate.
          * apply raise_verr_is in H. subst e. apply located_here. exact I.
          * injection H as ->. exfalso. exact (eq_raw_quiet _ _ _ Hx).
      - unfold maximum_validate in H. destruct exclusive; apply bind_if_raise in H as [Hc ->]; try exact true;
          try (intro; apply cmp_quiet); apply located_here; apply cmp_above; auto.
      - unfold minimum_validate in H. destruct exclusive; apply bind_if_raise in H as [Hc ->]; try exact true;
          try (intro; apply cmp_quiet); apply located_here; apply cmp_below; auto.
      - unfold multiple_of_validate in H. destruct (dec_of_value E v) as [q|x|] eqn:Hd; cbn [bind] in H; try discriminate.
        + destruct (dec_rem_is_zero q d) as [[|]|x|] eqn:Hr; cbn [bind] in H; try discriminate.
          * apply raise_verr_is in H. subst e. apply located_here. exists q. split; [apply dec_of_value_ok; exact Hd|].
            exact (rem_not_multiple _ _ Hr).
          * injection H as ->. unfold dec_rem_is_zero in Hr. cbv zeta in Hr. destruct (_ =? 0); [discriminate|]. destruct (_ <=? _); discriminate.
        + injection H as ->. exfalso. destruct v; try discriminate. exact (proj2 Hquiet _ _ Hd).
      - refine (min_len_located _ _ _ _ _ _ H). intro y. reflexivity.
      - refine (max_len_located _ _ _ _ _ _ H). intro y. reflexivity.
      - unfold format_validate in H. destruct (fmt E name) as [test|] eqn:Hf; [|discriminate].
        destruct (test v) as [[|]|x|] eqn:Ht; cbn [bind] in H; try discriminate.
        + apply raise_verr_is in H. subst e. apply located_here. left. eauto.
        + injection H as ->. exfalso. exact (proj1 Hquiet _ _ _ _ Hf Ht).
      - unfold pattern_validate in H. destruct v as [| | | | |s| |]; try discriminate.
        destruct (re_search E p s) eqn:Hp; [discriminate|]. apply raise_verr_is in H. subst e. apply located_here. right. eauto.
      - unfold required_validate in H. apply for_each_raise_in in H as (name & Hin & H).
        destruct (py_contains name v) as [[|]|x|] eqn:Hc; cbn [bind] in H; try discriminate.
        + apply raise_verr_is in H. subst e. apply located_here. intro Hn. apply py_contains_ok in Hn. congruence.
        + injection H as ->. destruct v; discriminate.
      - refine (min_len_located _ _ _ _ _ _ H). intro y. reflexivity.
      - refine (max_len_located _ _ _ _ _ _ H). intro y. reflexivity.
      - unfold object_validate in H. destruct v; try discriminate. apply for_each_raise_in in H as ([key x] & Hin & H).
        exact (member_located o c key x d e Hin Hs H).
      - unfold dep_required_validate in H. destruct v; try discriminate. apply for_each_raise_in in H as ([key its] & Hin & H).
        destruct (dmem key d) eqn:Hk; [|discriminate]. apply for_each_raise_in in H as (item & Hi & H).
        destruct (dmem item d) eqn:Hd; [discriminate|]. apply raise_verr_is in H. subst e. apply located_here.
        exists d. split; [reflexivity|]. split; [apply dmem_In, Hk|apply dmem_false, Hd].
      - unfold dep_schemas_validate in H. destruct v; try discriminate. apply for_each_raise_in in H as ([key n] & Hin & H).
        destruct (dmem key d); [|discriminate]. exact (Hrec _ _ _ _ H).
      - unfold array_validate in H. destruct v as [| | | | | |vals|].
        7: { match type of H with bind ?m _ = _ => destruct m as [i|x|] eqn:Hp end;
               cbn [bind] in H; [| |discriminate].
             - destruct items as [n|]; [|discriminate]. apply items_reject in H as (j & x & Hx & Hr).
               eapply located_down; [|exact (Hrec _ _ _ _ Hr)]. intros q y Hq. eapply looked_item; [|exact Hq].
               rewrite <- nth_error_skipn. exact Hx.
             - injection H as ->. destruct prefix as [[|p ps]|]; try discriminate. exact (prefix_located _ _ _ _ _ _ Hs Hp). }
        all: apply raise_verr_is in H; subst e; eapply place_lost; [exact Hs|constructor|discriminate].
      - unfold contains_validate in H. destruct (py_iter v) as [l|x|] eqn:Hi; cbn [bind] in H; try discriminate.
        2: { injection H as ->. destruct v; discriminate. }
        destruct (count_valid rec c0 l) as [k|x|] eqn:Hc; cbn [bind] in H; try discriminate.
        2: { injection H as ->. exfalso. exact (count_raise rec _ _ _ Hc). }
        apply py_iter_ok in Hi. pose proof (count_le _ _ _ Hc).
        destruct (k <? mn); [apply raise_verr_is in H; subst e; apply located_here; eexists; exact Hi|].
        destruct mx as [m|]; [|discriminate]. destruct (negb (m =? 0) && (k >? m)) eqn:Hm; [|discriminate].
        apply raise_verr_is in H; subst e; apply located_here. exists l. split; [exact Hi|]. lia.
      - refine (min_len_located _ _ _ _ _ _ H). intro y. reflexivity.
      - refine (max_len_located _ _ _ _ _ _ H). intro y. reflexivity.
      - unfold unique_validate in H. destruct (py_iter v) as [l|x|] eqn:Hi; cbn [bind] in H; try discriminate.
        2: { injection H as ->. destruct v; discriminate. }
        apply py_iter_ok in Hi. apply unique_loop_raise in H as (pre & y & post & -> & -> & (s & [[]|Hsp] & Hse) & Hd & _ & Hh).
        assert (Hu : forall x, In x (pre ++ [y]) -> unstructured x) by (intros x Hx; apply unstructured_hashable, Hh, Hx).
        rewrite dotted_path. rewrite <- (app_nil_r c) at 2. eapply at_repeat; [exact Hs|constructor|exact Hi|].
        apply In_nth_error in Hsp as [j Hj]. exists j, s, y.
        assert (Hlt : (j < List.length pre)%nat) by (apply nth_error_Some; congruence).
        split; [exact Hlt|]. split; [rewrite nth_error_app1 by exact Hlt; exact Hj|].
        split; [rewrite nth_error_app2 by lia; simpl; rewrite Nat.sub_diag; reflexivity|].
        split; [apply equal_values_eq; [apply Hu, in_or_app; left; eapply nth_error_In, Hj|apply Hu, in_or_app; right; left; reflexivity|exact Hse]|].
        apply all_different_distinct in Hd; [|intros x Hx; apply Hu, in_or_app; left; exact Hx].
        simpl. rewrite firstn_app, Nat.sub_diag, firstn_all. simpl. rewrite app_nil_r. exact Hd.
      - apply for_each_raise_in in H as (n & _ & H). exact (Hrec _ _ _ _ H).
      - apply (anyof_located _ _ _ None e) in H; [exact H|discriminate].
      - apply (oneof_located _ _ _ 0%nat None e) in H; [exact H|discriminate].
      - unfold not_validate in H. destruct (try_valid (rec c0 v c)) as [[x|]|x|] eqn:Ht; cbn [bind] in H; try discriminate.
        + apply raise_verr_is in H. subst e. apply located_here. exact I.
        + injection H as ->. exfalso. exact (try_raise _ _ Ht).
      - unfold cond_validate in H. destruct (cv_if c0) as [i|]; [|discriminate].
        destruct (try_valid (rec i v c)) as [[x|]|x|] eqn:Ht; cbn [bind] in H; try discriminate.
        + destruct (cv_else c0); [exact (Hrec _ _ _ _ H)|discriminate].
        + destruct (cv_then c0); [exact (Hrec _ _ _ _ H)|discriminate].
        + injection H as ->. exfalso. exact (try_raise _ _ Ht).
    Qed.
  End Fixed.

  (** *** Building validators *)
  Definition quiet {A} (r : res A) : Prop := forall e, r <> Raise (EValid e).
  Lemma quiet_ok {A} (x : A) : quiet (Ok x).
  Proof. intros e. discriminate. Qed.
  Lemma quiet_bind {A B} (m : res A) (k : A -> res B) : quiet m -> (forall x, quiet (k x)) -> quiet (bind m k).
  Proof. intros Hm Hk e. destruct m as [x|x|]; cbn [bind]; [apply Hk| |discriminate]. intros [= ->]. exact (Hm e eq_refl). Qed.
  Lemma quiet_map {A B} (f : A -> res B) l : (forall x, quiet (f x)) -> quiet (map_res f l).
  Proof.
    intro Hf. induction l as [|x l IH]; cbn [map_res]; [apply quiet_ok|].
    apply quiet_bind; [apply Hf|]. intro. apply quiet_bind; [exact IH|]. intro. apply quiet_ok.
  Qed.
  Lemma quiet_view n : quiet (view n).
  Proof. intro. apply Hview. Qed.
  Ltac quiet_tac :=
    repeat first
      [ apply quiet_ok
      | apply quiet_view
      | apply quiet_bind; [|intro]
      | apply quiet_map; intro
      | match goal with
        | |- quiet (match ?x with _ => _ end) => destruct x
        | |- quiet (Raise _) => let e := fresh in intros e; discriminate
        end ].
  Lemma apply_quiet k items d : quiet (apply view strx E k items d).
  Proof.
    unfold apply, opnd, opnd_node, as_num, as_str, as_arr, as_obj, get_objv, get_condv, exclusive_flag, opt_bound,
      iter_strs, enum_item, opnd, opnd_node, as_num.
    apply quiet_bind; [quiet_tac|intro w]. apply quiet_bind; [quiet_tac|intro n].
    destruct k; quiet_tac.
  Qed.
  Lemma can_apply_quiet w k : quiet (can_apply view w k).
  Proof.
    unfold can_apply. destruct (nv_val w); quiet_tac.
    induction l as [|m l IH]; cbn [arr_contains_str]; [apply quiet_ok|].
    apply quiet_bind; [intro; apply eq_node_quiet|]. intros [|]; [apply quiet_ok|exact IH].
  Qed.
  Lemma compile_quiet n : quiet (compile view strx E voc n).
  Proof.
    unfold compile. apply quiet_bind; [apply quiet_view|]. intro w.
    assert (H : forall l d, quiet (run_kws view strx E w l d)).
    { induction l as [|k l IH]; intro d; cbn [run_kws]; [apply quiet_ok|].
      apply quiet_bind; [|intro; apply IH]. unfold step_kw. apply quiet_bind; [apply can_apply_quiet|].
      intros [|]; [|apply quiet_ok]. destruct (nv_val w); try apply apply_quiet; quiet_tac. }
    destruct (nv_val w); try apply H. apply quiet_ok.
  Qed.

  Notation all_sanctioned d := (Forall (fun kv => sanctioned (snd kv)) d).
  Lemma sanctioned_dset key o d : sanctioned o -> all_sanctioned d -> all_sanctioned (dset key o d).
  Proof.
    intros Ho Hd. induction Hd as [|[k' o'] d Hk Hd IH]; cbn [dset]; [repeat constructor; exact Ho|].
    destruct (str_eqb key k'); constructor; assumption.
  Qed.
  Lemma get_objv_sanctioned d o : all_sanctioned d -> get_objv d = Ok o -> sanctioned (VObject o).
  Proof.
    intros Hd. unfold get_objv. destruct (dget _ d) as [o'|] eqn:Hk.
    - destruct o'; try discriminate. intros [= <-]. apply dget_In in Hk. rewrite Forall_forall in Hd. exact (Hd _ Hk).
    - intros [= <-]. cbn. intro H. congruence.
  Qed.
  Lemma apply_sanctioned k items d d' : In k voc -> all_sanctioned d ->
    apply view strx E k items d = Ok d' -> all_sanctioned d'.
  Proof.
    intros Hk Hd H. unfold apply in H. apply bind_Ok in H as (w & _ & H). apply bind_Ok in H as (n & _ & H).
    destruct k; unfold put, put_objv, put_condv in H;
      repeat match type of H with
      | bind ?m _ = _ => apply bind_Ok in H as (? & ? & H)
      | (match ?x with _ => _ end) = _ => destruct x eqn:?; try discriminate
      end;
      injection H as <-;
      try exact Hd;
      apply sanctioned_dset; try exact Hd; cbn [sanctioned]; try exact I; try assumption; try (left; exact Hk); try (right; exact Hk);
      try (match goal with Hg : get_objv d = Ok _ |- _ => exact (get_objv_sanctioned _ _ Hd Hg) end).
    intros _. exact Hk.
  Qed.
  Lemma compile_sanctioned n d : compile view strx E voc n = Ok d -> all_sanctioned d.
  Proof.
    unfold compile. intro H. apply bind_Ok in H as (w & _ & H).
    assert (Hrun : forall l d0 d1, incl l voc -> all_sanctioned d0 -> run_kws view strx E w l d0 = Ok d1 -> all_sanctioned d1).
    { induction l as [|k l IH]; intros d0 d1 Hl H0; cbn [run_kws]; [intros [= <-]; exact H0|].
      intro Hr. apply bind_Ok in Hr as (d2 & Hs & Hr).
      apply (IH d2 d1); [intros x Hx; apply Hl; right; exact Hx| |exact Hr].
      unfold step_kw in Hs. apply bind_Ok in Hs as (b & _ & Hs). destruct b; [|injection Hs as <-; exact H0].
      destruct (nv_val w); try discriminate. exact (apply_sanctioned _ _ _ _ (Hl k (or_introl eq_refl)) H0 Hs). }
    destruct (nv_val w) as [|b| | | |]; try exact (Hrun voc [] d (fun x Hx => Hx) (Forall_nil _) H).
    injection H as <-. destruct b; constructor; [exact I|constructor].
  Qed.

  Lemma validate_located fuel : forall n v c e,
    validate view strx E voc fuel n v c = Raise (EValid e) -> located c v e.
  Proof.
    induction fuel as [|f IH]; intros n v c e; cbn [validate]; [discriminate|].
    destruct (compile view strx E voc n) as [d|x|] eqn:Hc; cbn [bind]; [| |discriminate].
    - intro H. apply for_each_raise_in in H as ([key o] & Hin & H). cbn [snd] in H.
      apply compile_sanctioned in Hc. rewrite Forall_forall in Hc.
      eapply run_located; [exact IH|exact (Hc _ Hin)|exact H].
    - intros [= ->]. exfalso. exact (compile_quiet n e Hc).
  Qed.
End Path.

(** ** C33 *)
Section C33.
  Context {node : Type} (view : node -> res (nview node)) (strx : node -> pystr) (E : env).
  Variable voc : list akw.
  Hypothesis Hquiet : quiet_env E.
  Hypothesis Hview : forall n e, view n <> Raise (EValid e).

  (** every error of every schema: the path is that of a place [validate] looked
      at and the value there deserves the complaint -- except that
      [uniqueItems] glues the index to the path, and an array schema applied to
      something else loses the path *)
  Theorem C33_every_path_partial n v c e :
    Outcome view strx E voc n v c (Raise (EValid e)) -> located E voc c v e.
  Proof. intros [_ [f H]]. exact (validate_located view strx E voc Hquiet Hview f n v c e H). Qed.

  Lemma looked_leads v p y : ~ In KwPropertyNames voc -> ~ In KwItems voc -> ~ In KwPrefixItems voc ->
    looked voc v p y -> leads v p y.
  Proof.
    intros H1 H2 H3 H. induction H as [v|d k x p y Hin H IH|l i x p y Hi H IH|d k x p y Hp Hin H IH|l i p y Hp Hl H IH].
    - constructor.
    - econstructor; eassumption.
    - econstructor; eassumption.
    - contradiction.
    - tauto.
  Qed.
  (** vocabularies without [items], [prefixItems], [uniqueItems] and
      [propertyNames], such as the one the package ships: the path is exactly
      the names and indices leading to the value that failed *)
  Theorem C33_error_path_partial n v c e :
    ~ In KwPropertyNames voc -> ~ In KwItems voc -> ~ In KwPrefixItems voc -> ~ In KwUniqueItems voc ->
    Outcome view strx E voc n v c (Raise (EValid e)) ->
    exists p y, leads v p y /\ ve_path e = dotted (c ++ p) /\ blames E (ve_kind e) y.
  Proof.
    intros H1 H2 H3 H4 Ho. apply C33_every_path_partial in Ho.
    destruct Ho as [p y k Hp Hb|p y l i Hu Hp Hl Hr|p y Hv Hp Hn].
    - exists p, y. split; [apply looked_leads; assumption|]. split; [reflexivity|exact Hb].
    - contradiction.
    - tauto.
  Qed.

  (** ** C36: an error either was rendered when it was made, or is one of the two
      kinds built from a positional argument *)
  Definition rendered (e : verr) : Prop := by_args (ve_kind e) = true \/ forall shown, str_error e shown = Ok tt.
  Definition born {A} (r : res A) : Prop := forall e, r = Raise (EValid e) -> rendered e.
  Lemma born_quiet {A} (r : res A) : (forall e, r <> Raise (EValid e)) -> born r.
  Proof. intros H e He. destruct (H e He). Qed.
  Lemma born_ok {A} (x : A) : born (Ok x).
  Proof. intros e; discriminate. Qed.
  Lemma born_raise {A} k p : born (@raise_verr A k p).
  Proof.
    intros e He. pose proof (raise_verr_is _ _ _ He) as ->. unfold raise_verr in He. unfold rendered. cbn [ve_kind ve_path].
    destruct (by_args k) eqn:Hb; [left; reflexivity|]. right. intro shown.
    unfold str_error. cbn [ve_kind ve_path].
    assert (Hm : message k shown = template k) by (destruct k; try discriminate Hb; reflexivity). rewrite Hm.
    destruct (err_str k p (template k)) as [[]|x|] eqn:Hs; cbn [bind] in He; [reflexivity| |discriminate].
    injection He as ->. exfalso. unfold err_str, py_format in Hs. exact (format_not_valid _ _ _ _ Hs).
  Qed.
  Lemma born_bind {A B} (m : res A) (k : A -> res B) : born m -> (forall x, born (k x)) -> born (bind m k).
  Proof. intros Hm Hk e. destruct m as [x|x|]; cbn [bind]; [apply Hk| |discriminate]. intros [= ->]. exact (Hm e eq_refl). Qed.
  Lemma born_for {A} (f : A -> res unit) l : (forall x, born (f x)) -> born (for_each f l).
  Proof. intros Hf e H. apply for_each_raise_in in H as (x & _ & H). exact (Hf x e H). Qed.
  Lemma try_quiet m e : try_valid m <> Raise (EValid e).
  Proof. intro H. exact (try_raise _ _ H). Qed.
  Ltac born_tac :=
    repeat first
      [ apply born_ok
      | apply born_raise
      | solve [apply born_quiet; intros; discriminate]
      | solve [apply born_quiet; intro; apply try_quiet]
      | apply born_bind; [|intro]
      | apply born_for; intro
      | match goal with
        | |- born (match ?x with _ => _ end) => destruct x
        end ].
  Section Fixed.
    Variable rec : node -> pv -> ctx -> res unit.
    Hypothesis Hrec : forall n v c, born (rec n v c).
    Lemma born_prefix lf ps vals i c : born (prefix_loop rec lf ps vals i c).
    Proof.
      revert i; induction lf as [|lf IH]; intro i; cbn [prefix_loop]; born_tac; try apply Hrec; apply IH.
    Qed.
    Lemma born_items n vals i c : born (items_loop rec n vals i c).
    Proof. revert i; induction vals as [|x vals IH]; intro i; cbn [items_loop]; born_tac; [apply Hrec|apply IH]. Qed.
    Lemma born_pattern pats k x c b : born (pattern_loop E rec pats k x c b).
    Proof. revert b; induction pats as [|[p n] pats IH]; intro b; cbn [pattern_loop]; born_tac; try apply Hrec; apply IH. Qed.
    Lemma born_count n l : born (count_valid rec n l).
    Proof. induction l as [|x l IH]; cbn [count_valid]; born_tac. exact IH. Qed.
    Lemma try_born m e : born m -> try_valid m = Ok (Some e) -> rendered e.
    Proof. intros Hm H. apply try_some in H. exact (Hm e H). Qed.
    Lemma born_anyof l v c last : (forall e, last = Some e -> rendered e) -> born (anyof_loop rec l v c last).
    Proof.
      revert last; induction l as [|n l IH]; intros last Hl; cbn [anyof_loop].
      - destruct last as [e|]; [|born_tac]. intros e' [= <-]. apply Hl; reflexivity.
      - destruct (try_valid (rec n v c)) as [[e|]|x|] eqn:Ht; cbn [bind]; [|born_tac| |born_tac].
        + apply IH. intros e' [= <-]. exact (try_born _ _ (Hrec n v c) Ht).
        + intros e [= ->]. destruct (try_raise _ _ Ht).
    Qed.
    Lemma born_oneof l v c k last : (forall e, last = Some e -> rendered e) -> born (oneof_loop rec l v c k last).
    Proof.
      revert k last; induction l as [|n l IH]; intros k last Hl; cbn [oneof_loop].
      - destruct k as [|[|k]]; [|born_tac|born_tac]. destruct last as [e|]; [|born_tac]. intros e' [= <-]. apply Hl; reflexivity.
      - destruct (try_valid (rec n v c)) as [[e|]|x|] eqn:Ht; cbn [bind]; [| | |born_tac].
        + apply IH. intros e' [= <-]. exact (try_born _ _ (Hrec n v c) Ht).
        + apply IH. exact Hl.
        + intros e [= ->]. destruct (try_raise _ _ Ht).
    Qed.
    Lemma born_unique seen i l c : born (unique_loop seen i l c).
    Proof. revert seen i; induction l as [|x l IH]; intros seen i; cbn [unique_loop]; born_tac. apply IH. Qed.
    Lemma run_born lf o v c : born (run_vobj view E rec lf o v c).
    Proof.
      destruct o; cbn [run_vobj].
      - born_tac.
      - unfold type_validate. born_tac.
      - unfold enum_validate. born_tac; apply born_quiet; intro; [apply tweak_quiet|apply enum_in_quiet]; assumption.
      - unfold const_validate. born_tac. apply born_quiet; intro. apply eq_raw_quiet; assumption.
      - unfold maximum_validate. born_tac; apply born_quiet; intro; apply cmp_quiet.
      - unfold minimum_validate. born_tac; apply born_quiet; intro; apply cmp_quiet.
      - unfold multiple_of_validate, dec_rem_is_zero. born_tac; apply born_quiet; intros e He.
        destruct v; try discriminate. exact (proj2 Hquiet _ _ He).
      - unfold min_len_validate. born_tac. destruct v; born_tac.
      - unfold max_len_validate. born_tac. destruct v; born_tac.
      - unfold format_validate. destruct (fmt E name) as [test|] eqn:Hf; born_tac. apply born_quiet. intro. exact (proj1 Hquiet _ _ _ _ Hf).
      - unfold pattern_validate. born_tac.
      - unfold required_validate. born_tac. destruct v; born_tac.
      - unfold min_len_validate. born_tac. destruct v; born_tac.
      - unfold max_len_validate. born_tac. destruct v; born_tac.
      - unfold object_validate, member_validate. born_tac; try apply Hrec; try apply born_pattern.
        unfold run_sub. born_tac. apply Hrec.
      - unfold dep_required_validate. born_tac.
      - unfold dep_schemas_validate. born_tac. apply Hrec.
      - unfold array_validate. born_tac; try apply born_prefix; apply born_items.
      - unfold contains_validate. born_tac; try apply born_count. destruct v; born_tac.
      - unfold min_len_validate. born_tac. destruct v; born_tac.
      - unfold max_len_validate. born_tac. destruct v; born_tac.
      - unfold unique_validate. born_tac; [destruct v; born_tac|apply born_unique].
      - born_tac. apply Hrec.
      - apply born_anyof. discriminate.
      - apply born_oneof. discriminate.
      - unfold not_validate. born_tac.
      - unfold cond_validate. born_tac; apply Hrec.
    Qed.
  End Fixed.
  Lemma validate_born fuel : forall n v c, born (validate view strx E voc fuel n v c).
  Proof.
    induction fuel as [|f IH]; intros n v c; cbn [validate]; [born_tac|].
    apply born_bind; [apply born_quiet; intro; apply compile_quiet; assumption|]. intro d.
    apply born_for. intro kv. apply run_born. exact IH.
  Qed.

  (** whatever error [validate] raises, [str()] of it works, unless it is the
      bare "Unexpected value" / "Failed to validate" kind *)
  Theorem C36_rendering_partial n v c e shown :
    Outcome view strx E voc n v c (Raise (EValid e)) ->
    ve_kind e <> KFail -> ve_kind e <> KNot -> str_error e shown = Ok tt.
  Proof.
    intros [_ [f H]] H1 H2. destruct (validate_born f n v c e H) as [Hb|Hr]; [|apply Hr].
    destruct (ve_kind e); try discriminate Hb; contradiction.
  Qed.
  (** and those two render when neither the path nor the shown value has a brace *)
  Theorem C36_plain_partial e shown : plain_text (ve_path e) -> plain_text shown -> str_error e shown = Ok tt.
  Proof.
    intros Hp Hs. unfold str_error. apply err_str_plain; [exact Hp|].
    destruct (ve_kind e); try apply template_ok. cbn [message].
    rewrite scan_plain by (apply plain_text_b; reflexivity). rewrite scan_plain by exact Hs. reflexivity.
  Qed.
End C33.
