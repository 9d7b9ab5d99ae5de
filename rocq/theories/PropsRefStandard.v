(** C114: documents with references, against JSON Schema 2020-12. *)
From Verif Require Import PyBase PyBaseFacts PyVal OrderFacts Regex Numbers Uri Pointer PropsPointer Store Errors Validators Keywords Spec Master Heap HeapFacts PropsWrap PropsPlaces PropsUriEx Doc DocMono DocFacts PropsQuery DocLoad PropsLoad DocDocument PropsAnchor PropsRef Parametric Validate PropsValidate PropsInline PropsErrors PropsTotal Mono Claims Standard PropsStandard ExBase.
From Coq Require Import QArith.
Local Open Scope nat_scope.
Local Notation length := List.length (only parsing).

(** ** The specification *)
(** The document with the text under each ["$ref"] replaced by the schema object it
    refers to (Core 8.2.3.1); [Standard.means] reads the result. *)
Section Resolved.
  Variables (auth : pystr -> option authority) (V : pv).
  Inductive resolved : pv -> pv -> Prop :=
  | rs_value x : (forall l, x <> VList l) -> (forall d, x <> VDict d) -> resolved x x
  | rs_list l m : Forall2 resolved l m -> resolved (VList l) (VList m)
  | rs_dict d e : Forall2 (fun a b => fst a = fst b /\
      ((fst a <> u "$ref" /\ resolved (snd a) (snd b)) \/
       (fst a = u "$ref" /\ exists t v p o, snd a = VStr t /\ local auth t v p /\ inside V p (VDict o) /\ resolved (VDict o) (snd b)))) d e ->
      resolved (VDict d) (VDict e).
End Resolved.

(** The documents on which both readings agree about what is a reference. *)
Record plain_refs (V : pv) : Prop := {
  pr_alone : forall f d, part V (f, VDict d) -> dget (u "$ref") d <> None -> f = false /\ exists t, d = [(u "$ref", VStr t)];
  pr_anchor : forall d, part V (false, VDict d) -> dget (u "$anchor") d = None;
  pr_tables : forall d k tb, part V (false, VDict d) -> In k tables -> dget k d = Some (VDict tb) -> dget (u "$ref") tb = None;
  pr_const : forall d x e, part V (false, VDict d) -> dget (u "const") d = Some x -> within x (VDict e) -> dget (u "$ref") e = None;
  pr_root : forall d, V = VDict d -> dget [] d = None
}.

(** ** Equal meanings *)
Definition alike (m m' : meaning) : Prop := (forall v, valid m v <-> valid m' v) /\ (forall v k, evaluates m v k <-> evaluates m' v k).
Lemma alike_refl m : alike m m.
Proof. split; reflexivity. Qed.
Lemma alike_sym m m' : alike m m' -> alike m' m.
Proof. intros [A B]. split; intros; symmetry; auto. Qed.
Lemma alike_trans a b c : alike a b -> alike b c -> alike a c.
Proof. intros [A B] [C D]. split; intros; [rewrite A; apply C|rewrite B; apply D]. Qed.

Record like_operand (k : pystr) (o o' : operand) : Prop := {
  op_self : alike (self o) (self o');
  op_each : each o = each o';
  op_raw : raw o = raw o' \/ ((exists a, raw o = VDict a) /\ exists b, raw o' = VDict b);
  op_named : In k tables -> Forall2 (member alike) (named o) (named o');
  op_lists : In k tables -> forall a b key l, raw o = VDict a -> raw o' = VDict b -> (In (key, VList l) a <-> In (key, VList l) b);
  op_const : k = u "const" -> raw o = raw o'
}.
Lemma like_operand_sym k o o' : like_operand k o o' -> like_operand k o' o.
Proof.
  intros [A B C D F G]. constructor; auto.
  - apply alike_sym, A.
  - destruct C as [C|[C1 C2]]; auto.
  - intro I. specialize (D I). clear -D. induction D as [|x y l m [E1 E2] _ IH]; constructor; [split; [auto|apply alike_sym, E2]|exact IH].
  - intros I a b key l Ea Eb. symmetry. eapply F; eassumption.
  - intro I. symmetry. auto.
Qed.
Lemma named_in (l m : list (pystr * meaning)) k s : Forall2 (member alike) l m -> In (k, s) l -> exists s', In (k, s') m /\ alike s s'.
Proof.
  induction 1 as [|[k1 a] [k2 b] l m [E1 E2] _ IH]; intros I; [destruct I|]. cbn [fst snd] in *. subst k2. destruct I as [[= -> ->]|I]; [exists b; split; [left; reflexivity|exact E2]|].
  destruct (IH I) as (s' & I' & A). exists s'. split; [right; exact I'|exact A].
Qed.

Section Same.
  Variables (matches conforms : pystr -> pystr -> Prop).
  Notation like_tables t t' := (forall k : pystr, rel_opt (like_operand k) (dget k t) (dget k t')).

  Section Table.
    Variables t t' : list (pystr * operand).
    Hypothesis L : like_tables t t'.
    Lemma get_left k m : dget k t = Some m -> exists m', dget k t' = Some m' /\ like_operand k m m'.
    Proof. intro H. pose proof (L k) as K. rewrite H in K. inversion K; subst. eauto. Qed.
    Lemma get_right k m' : dget k t' = Some m' -> exists m, dget k t = Some m /\ like_operand k m m'.
    Proof. intro H. pose proof (L k) as K. rewrite H in K. inversion K; subst. eauto. Qed.
    Lemma listed_imp key : listed t key -> listed t' key.
    Proof.
      intros (m & s & H & I). destruct (get_left _ _ H) as (m' & H' & O). destruct (named_in _ _ _ _ (op_named _ _ _ O (or_introl eq_refl)) I) as (s' & I' & _). exists m', s'. auto.
    Qed.
    Lemma matched_imp key : matched matches t key -> matched matches t' key.
    Proof.
      intros (m & p & s & H & I & M). destruct (get_left _ _ H) as (m' & H' & O). destruct (named_in _ _ _ _ (op_named _ _ _ O (or_intror (or_introl eq_refl))) I) as (s' & I' & _). exists m', p, s'. auto.
    Qed.
    Lemma evaluated_imp v key : evaluated matches t v key -> evaluated matches t' v key.
    Proof.
      intros [H|[H|[H|[H|[H|[H|[H|[H|H]]]]]]]].
      - left. apply listed_imp, H.
      - right; left. apply matched_imp, H.
      - right; right; left. destruct H as [m H]. destruct (get_left _ _ H) as (m' & H' & _). eauto.
      - do 3 right; left. destruct H as (m & s & H & I & Ev). destruct (get_left _ _ H) as (m' & H' & O). rewrite (op_each _ _ _ O) in I. eauto 8.
      - do 4 right; left. destruct H as (k & m & s & Ek & H & I & Va & Ev). destruct (get_left _ _ H) as (m' & H' & O). rewrite (op_each _ _ _ O) in I. exists k, m', s. auto.
      - do 5 right; left. destruct H as (m & H & Va & Ev). destruct (get_left _ _ H) as (m' & H' & O). exists m'. split; [exact H'|]. split; [apply (op_self _ _ _ O), Va|].
        destruct Ev as [Ev|(n & Hn & Ev)]; [left; apply (op_self _ _ _ O), Ev|right]. destruct (get_left _ _ Hn) as (n' & Hn' & On). exists n'. split; [exact Hn'|apply (op_self _ _ _ On), Ev].
      - do 6 right; left. destruct H as (m & n & H & Va & Hn & Ev). destruct (get_left _ _ H) as (m' & H' & O). destruct (get_left _ _ Hn) as (n' & Hn' & On). exists m', n'. split; [exact H'|]. split; [intro N; apply Va, (op_self _ _ _ O), N|]. split; [exact Hn'|apply (op_self _ _ _ On), Ev].
      - do 7 right; left. destruct H as (m & k & s & d & H & -> & I & I2 & Ev). destruct (get_left _ _ H) as (m' & H' & O). destruct (named_in _ _ _ _ (op_named _ _ _ O (or_intror (or_intror (or_introl eq_refl)))) I2) as (s' & I' & A).
        exists m', k, s', d. split; [exact H'|]. split; [reflexivity|]. split; [exact I|]. split; [exact I'|apply A, Ev].
      - do 8 right. destruct H as (m & H & Ev). destruct (get_left _ _ H) as (m' & H' & O). exists m'. split; [exact H'|apply (op_self _ _ _ O), Ev].
    Qed.
  End Table.

  Lemma tables_sym t t' : like_tables t t' -> like_tables t' t.
  Proof. intros L k. destruct (L k) as [|m m' O]; constructor. apply like_operand_sym, O. Qed.

  Ltac by_raw O := cbv beta in *; destruct (op_raw _ _ _ O) as [E|[[ra E] [rb E']]]; [rewrite <- E; assumption|try rewrite E in *; rewrite E'].
  Lemma count_alike P Q l n : (forall v, P v <-> Q v) -> count P l n -> count Q l n.
  Proof. intros A. induction 1 as [|x l n Hx _ IH|x l n Hx _ IH]; [apply count_nil|apply count_yes; [apply A, Hx|exact IH]|apply count_no; [rewrite <- A; exact Hx|exact IH]]. Qed.
  Lemma valid_imp t t' v : like_tables t t' -> object_valid matches conforms t v -> object_valid matches conforms t' v.
  Proof.
    intros L H.
    assert (Fl : forall k m', dget k t' = Some m' -> exists m, dget k t = Some m /\ like_operand k m m') by (apply get_right, L).
    assert (Nm : forall k m m' key s', In k tables -> like_operand k m m' -> In (key, s') (named m') -> exists s, In (key, s) (named m) /\ alike s s').
    { intros k m m' key s' Ik O I. destruct (named_in _ _ _ _ (op_named _ _ _ (like_operand_sym _ _ _ O) Ik) I) as (s & I' & A). exists s. split; [exact I'|apply alike_sym, A]. }
    assert (Li : forall key, listed t key <-> listed t' key) by (intro; split; apply listed_imp; [exact L|apply tables_sym, L]).
    assert (Ma : forall key, matched matches t key <-> matched matches t' key) by (intro; split; apply matched_imp; [exact L|apply tables_sym, L]).
    assert (Ev : forall key, evaluated matches t v key <-> evaluated matches t' v key) by (intro; split; apply evaluated_imp; [exact L|apply tables_sym, L]).
    constructor; intros m' Hm; destruct (Fl _ _ Hm) as (m & Hm0 & O).
    - pose proof (st_type _ _ _ _ H m Hm0) as K. by_raw O. destruct K as [(s & [=] & _)|(l & s & [=] & _)].
    - pose proof (st_enum _ _ _ _ H m Hm0) as K. by_raw O. destruct K as (l & y & [=] & _).
    - pose proof (st_const _ _ _ _ H m Hm0) as K. rewrite <- (op_const _ _ _ O eq_refl). exact K.
    - pose proof (st_multiple _ _ _ _ H m Hm0) as K. cbv beta in *. by_raw O. discriminate.
    - pose proof (st_max _ _ _ _ H m Hm0) as K. cbv beta in *. by_raw O. discriminate.
    - pose proof (st_xmax _ _ _ _ H m Hm0) as K. cbv beta in *. by_raw O. discriminate.
    - pose proof (st_min _ _ _ _ H m Hm0) as K. cbv beta in *. by_raw O. discriminate.
    - pose proof (st_xmin _ _ _ _ H m Hm0) as K. cbv beta in *. by_raw O. discriminate.
    - pose proof (st_max_length _ _ _ _ H m Hm0) as K. cbv beta in *. by_raw O. intros n s (q & [=] & _).
    - pose proof (st_min_length _ _ _ _ H m Hm0) as K. cbv beta in *. by_raw O. intros n s (q & [=] & _).
    - pose proof (st_pattern _ _ _ _ H m Hm0) as K. cbv beta in *. by_raw O. discriminate.
    - pose proof (st_max_items _ _ _ _ H m Hm0) as K. cbv beta in *. by_raw O. intros n s (q & [=] & _).
    - pose proof (st_min_items _ _ _ _ H m Hm0) as K. cbv beta in *. by_raw O. intros n s (q & [=] & _).
    - pose proof (st_unique _ _ _ _ H m Hm0) as K. cbv beta in *. by_raw O. discriminate.
    - intros l El. destruct (st_contains _ _ _ _ H m Hm0 l El) as (n & C & B1 & B2). exists n. split; [eapply count_alike; [|exact C]; intro; apply (op_self _ _ _ O)|]. split.
      + destruct (L (u "minContains")) as [|b b' Ob]; [exact B1|]. intros z Hz. apply B1. destruct (op_raw _ _ _ Ob) as [E|[_ [rb E']]]; [rewrite E; exact Hz|]. rewrite E' in Hz. destruct Hz as (q & [=] & _).
      + intros b' Hb z Hz. destruct (Fl _ _ Hb) as (b & Hb0 & Ob). apply (B2 b Hb0). destruct (op_raw _ _ _ Ob) as [E|[_ [rb E']]]; [rewrite E; exact Hz|]. rewrite E' in Hz. destruct Hz as (q & [=] & _).
    - pose proof (st_max_properties _ _ _ _ H m Hm0) as K. cbv beta in *. by_raw O. intros n s (q & [=] & _).
    - pose proof (st_min_properties _ _ _ _ H m Hm0) as K. cbv beta in *. by_raw O. intros n s (q & [=] & _).
    - pose proof (st_required _ _ _ _ H m Hm0) as K. cbv beta in *. by_raw O. discriminate.
    - pose proof (st_dependent_required _ _ _ _ H m Hm0) as K. cbv beta in *. intros tb key l name d Et I Ed Ik In1. destruct (op_raw _ _ _ O) as [E|[[ra E] [rb E']]]; [rewrite <- E in Et; eapply K; eassumption|].
      rewrite E' in Et. injection Et as ->. apply (op_lists _ _ _ O (or_intror (or_intror (or_intror (or_introl eq_refl)))) ra tb key l E E') in I. eapply K; eassumption.
    - pose proof (st_format _ _ _ _ H m Hm0) as K. cbv beta in *. by_raw O. discriminate.
    - rewrite <- (op_each _ _ _ O). exact (st_all _ _ _ _ H m Hm0).
    - rewrite <- (op_each _ _ _ O). exact (st_any _ _ _ _ H m Hm0).
    - rewrite <- (op_each _ _ _ O). exact (st_one _ _ _ _ H m Hm0).
    - intro N. apply (st_not _ _ _ _ H m Hm0), (op_self _ _ _ O), N.
    - intros Va n' Hn. destruct (Fl _ _ Hn) as (n & Hn0 & On). apply (op_self _ _ _ On). apply (st_then _ _ _ _ H m Hm0); [apply (op_self _ _ _ O), Va|exact Hn0].
    - intros Va n' Hn. destruct (Fl _ _ Hn) as (n & Hn0 & On). apply (op_self _ _ _ On). apply (st_else _ _ _ _ H m Hm0); [intro N; apply Va, (op_self _ _ _ O), N|exact Hn0].
    - intros key s d Ed Ik I. destruct (Nm _ m m' key s ltac:(right; right; left; reflexivity) O I) as (s0 & I0 & A). apply A. exact (st_dependent_schemas _ _ _ _ H m Hm0 key s0 d Ed Ik I0).
    - rewrite <- (op_each _ _ _ O). exact (st_prefix _ _ _ _ H m Hm0).
    - intros l i y El B G. apply (op_self _ _ _ O). apply (st_items _ _ _ _ H m Hm0 l i y El); [|exact G]. unfold before_items in *. destruct (L (u "prefixItems")) as [|b b' Ob]; [exact B|]. rewrite (op_each _ _ _ Ob). exact B.
    - intros d key y s Ed I I2. destruct (Nm _ m m' key s (or_introl eq_refl) O I2) as (s0 & I0 & A). apply A. exact (st_properties _ _ _ _ H m Hm0 d key y s0 Ed I I0).
    - intros d key y p s Ed I I2 Mt. destruct (Nm _ m m' p s (or_intror (or_introl eq_refl)) O I2) as (s0 & I0 & A). apply A. exact (st_pattern_properties _ _ _ _ H m Hm0 d key y p s0 Ed I I0 Mt).
    - intros d key y Ed I N1 N2. apply (op_self _ _ _ O). apply (st_additional _ _ _ _ H m Hm0 d key y Ed I); [rewrite Li; exact N1|rewrite Ma; exact N2].
    - intros d key y Ed I. apply (op_self _ _ _ O). exact (st_names _ _ _ _ H m Hm0 d key y Ed I).
    - intros d key y Ed I N. apply (op_self _ _ _ O). apply (st_unevaluated _ _ _ _ H m Hm0 d key y Ed I). rewrite Ev. exact N.
    - apply (op_self _ _ _ O). exact (st_ref _ _ _ _ H m Hm0).
  Qed.
  Lemma object_alike t t' : like_tables t t' -> alike (object_meaning matches conforms t) (object_meaning matches conforms t').
  Proof.
    intro L. split.
    - intro v. cbn [object_meaning valid]. split; apply valid_imp; [exact L|apply tables_sym, L].
    - intros v k. cbn [object_meaning evaluates]. split; (intros [H|[m H]]; [left; eapply evaluated_imp; [|exact H]|right]).
      + exact L.
      + destruct (get_left _ _ L _ _ H) as (m' & H' & _). eauto.
      + apply tables_sym, L.
      + destruct (get_right _ _ L _ _ H) as (m' & H' & _). eauto.
  Qed.
  (** a reference alone means what it refers to *)
  Lemma reference_alone x : alike (means matches conforms (VDict [(u "$ref", x)])) (means matches conforms x).
  Proof.
    cbn [means map fst snd]. split.
    - intro v. cbn [object_meaning valid]. split.
      + intro H. exact (st_ref _ _ _ _ H _ eq_refl).
      + intro H. constructor; try (intros m Hm; discriminate Hm). intros m [= <-]. exact H.
    - intros v k. cbn [object_meaning evaluates]. split.
      + intros [H|[m H]]; [|discriminate]. destruct H as [H|[H|[H|[H|[H|[H|[H|[H|H]]]]]]]].
        * destruct H as (? & ? & [=] & _).
        * destruct H as (? & ? & ? & [=] & _).
        * destruct H as (? & [=]).
        * destruct H as (? & ? & [=] & _).
        * destruct H as (? & ? & ? & [-> | ->] & [=] & _).
        * destruct H as (? & [=] & _).
        * destruct H as (? & ? & [=] & _).
        * destruct H as (? & ? & ? & ? & [=] & _).
        * destruct H as (m & [= <-] & H). exact H.
      + intro H. left. do 8 right. eexists. split; [reflexivity|exact H].
  Qed.
End Same.

(** ** The two readings of references *)
Section Readings.
  Variables (auth : pystr -> option authority) (dig : N -> option Z) (V : pv) (matches conforms : pystr -> pystr -> Prop).
  Hypothesis Pr : plain_refs V.
  Hypothesis Dv : distinct V.
  Notation resolved := (resolved auth V).
  Notation unfolds := (unfolds auth dig V).
  Notation M := (means matches conforms).
  Definition refless (x : pv) : Prop := forall d, within x (VDict d) -> dget (u "$ref") d = None.
  Lemma within_member d k x y : In (k, x) d -> within x y -> within (VDict d) y.
  Proof. intros I W. induction W as [|e k' y W IH I'|l y W IH I']; [eapply wi_member; [apply wi_here|exact I]|eapply wi_member; eassumption|eapply wi_elem; eassumption]. Qed.
  Lemma within_elem l x y : In x l -> within x y -> within (VList l) y.
  Proof. intros I W. induction W as [|e k' y W IH I'|m y W IH I']; [eapply wi_elem; [apply wi_here|exact I]|eapply wi_member; eassumption|eapply wi_elem; eassumption]. Qed.
  Lemma within_part f x y : part V (f, x) -> within x y -> exists g, part V (g, y) /\ (f = true -> g = true).
  Proof.
    intros P W. induction W as [|e k' y W (g & IH & Hg) I'|m y W (g & IH & Hg) I']; [exists f; auto|exists g; split; [eapply pt_member; eassumption|exact Hg]|exists true; split; [eapply pt_elem; eassumption|reflexivity]].
  Qed.
  Lemma refless_array x : part V (true, x) -> refless x.
  Proof.
    intros P d W. destruct (within_part _ _ _ P W) as (g & Pd & Hg). rewrite (Hg eq_refl) in Pd. destruct (dget (u "$ref") d) eqn:E; [|reflexivity]. destruct (pr_alone V Pr true d Pd) as [[=] _]. rewrite E. discriminate.
  Qed.
  Lemma resolved_refless x : refless x -> forall r, resolved x r -> r = x.
  Proof.
    induction x as [x Nl Nd|l IH|d IH] using pv_ind_deep; intros R r H.
    - inversion H; subst; [reflexivity|exfalso; eapply Nl; reflexivity|exfalso; eapply Nd; reflexivity].
    - inversion H as [? C|? m F|]; subst; [exfalso; eapply C; reflexivity|]. f_equal. clear H. rewrite Forall_forall in IH. assert (K : forall x r, In x l -> resolved x r -> r = x) by (intros x r I; apply IH; [exact I|intros e W; apply R; eapply within_elem; eassumption]). clear IH R.
      induction F as [|a b l m H F IHF]; [reflexivity|]. f_equal; [apply (K a b (or_introl eq_refl) H)|]. apply IHF. intros x r I. apply K. right. exact I.
    - inversion H as [? _ C| |? e F]; subst; [exfalso; eapply C; reflexivity|]. f_equal. clear H. rewrite Forall_forall in IH. assert (K : forall k x r, In (k, x) d -> resolved x r -> r = x) by (intros k x r I; apply (IH (k, x) I); intros e' W; apply R; eapply within_member; eassumption).
      assert (Nr : forall x, ~ In (u "$ref", x) d). { intros x I. pose proof (R d (wi_here _)) as G. apply (in_map fst) in I. apply dget_None in G. exact (G I). } clear IH R.
      induction F as [|[k1 a] [k2 b] d e [E1 H] F IHF]; [reflexivity|]. cbn [fst snd] in *. subst k2. destruct H as [[_ H]|[-> _]]; [|exfalso; eapply Nr; left; reflexivity].
      rewrite (K k1 a b (or_introl eq_refl) H). f_equal. apply IHF; [intros k x r I; eapply K; right; exact I|intros x I; eapply Nr; right; exact I].
  Qed.
  Lemma unfolds_refless y z : unfolds y z -> part V y -> refless (snd y) -> z = snd y.
  Proof.
    revert y z. apply (unfolds_deep auth dig V (fun y z => part V y -> refless (snd y) -> z = snd y)).
    - reflexivity.
    - reflexivity.
    - intros d e Nr F P R. cbn [snd] in *. rewrite (ddel_absent _ _ (pr_anchor V Pr d P)) in F. f_equal.
      assert (K : forall k x, In (k, x) d -> part V (false, x) /\ refless x). { intros k x I. split; [eapply pt_member; eassumption|]. intros e' W. apply R. eapply within_member; eassumption. } clear P R Nr.
      induction F as [|[k1 a] [k2 b] d e [E1 [_ H]] F IHF]; [reflexivity|]. cbn [fst snd] in *. subst k2. destruct (K k1 a (or_introl eq_refl)) as [K1 K2]. rewrite (H K1 K2). f_equal. apply IHF. intros k x I. eapply K. right. exact I.
    - intros d t v p y o e G _ _ _ _ _ P R. rewrite (R d (wi_here _)) in G. discriminate.
  Qed.

  (** where a pointer leads, passing no reference *)
  Lemma none_declared q k : ~ declares V q k.
  Proof. intros (d & I & _ & A). rewrite (pr_anchor V Pr d) in A; [discriminate|]. eapply inside_part, I. Qed.
  Lemma steps_inside x p o : inside x p (VDict o) -> part V (false, x) -> forall y, steps auth dig V (false, x) p y -> y = (false, VDict o).
  Proof.
    intro H. remember (VDict o) as z eqn:Ez. induction H as [v|d k x p z G I IH]; intros P y S; subst; [inversion S; reflexivity|].
    inversion S as [|? look ? y1 ? ? Rd Lk S'|]; subst. inversion Rd as [|? Nr|? ? C|? t v0 p0 y0 look0 Gr|]; subst.
    - unfold under in Lk. rewrite (ddel_absent _ _ (pr_anchor V Pr d P)), G in Lk. injection Lk as <-. apply IH; [reflexivity| |exact S']. eapply pt_member; [exact P|apply dget_In, G].
    - exfalso. destruct (pr_alone V Pr false d P) as [_ [t' ->]]; [rewrite Gr; discriminate|]. cbn [dget] in G. destruct (str_eqb k (u "$ref")); [|discriminate]. injection G as <-. inversion I.
  Qed.
  Lemma finds_inside p o y : inside V p (VDict o) -> finds auth dig V p y -> y = (false, VDict o).
  Proof.
    intros I F. inversion F as [name q d D|N|? ? Np Nd S]; subst.
    - destruct (none_declared _ _ D).
    - inversion I as [|d k x q y G I']; subst. rewrite (pr_root _ Pr d eq_refl) in G; discriminate.
    - eapply steps_inside; [exact I|apply pt_root|exact S].
  Qed.
  Lemma unfolds_keys y e : unfolds y (VDict e) -> part V y -> NoDup (dkeys e).
  Proof.
    assert (Dp : forall f d, part V (f, VDict d) -> NoDup (dkeys d)).
    { intros f d P. assert (K : forall y, part V y -> distinct (snd y)). { clear -Dv. induction 1 as [|f d k x _ IH I|f l x _ IH I]; [exact Dv| |]; cbn [snd] in *; [eapply (distinct_all d IH (k, x)); exact I|]. inversion IH as [? C _|? F|]; subst; [exfalso; eapply C; reflexivity|]. rewrite Forall_forall in F. apply F, I. }
      apply distinct_dict, (K _ P). }
    intros U P. inversion U as [|? C|d ? Nr F|d t v p y0 o e0 G _ _ F _]; subst.
    - eapply Dp, P.
    - exfalso. eapply C. reflexivity.
    - rewrite <- (member_keys _ _ _ F). apply NoDup_ddel. eapply Dp, P.
    - unfold updated. apply NoDup_update. rewrite <- (member_keys _ _ _ F). apply NoDup_filter_keys. eapply Dp, P.
  Qed.

  Definition op (x : pv) : operand := Operand x (M x) (match x with VList l => map M l | _ => [] end) (match x with VDict e => map (fun ky => (fst ky, M (snd ky))) e | _ => [] end).
  Definition same_shape (r z : pv) : Prop := r = z \/ ((exists a, r = VDict a) /\ exists b, z = VDict b).
  Definition same_table (r z : pv) : Prop := Forall2 (member alike) (named (op r)) (named (op z)) /\
    forall a b key l, r = VDict a -> z = VDict b -> (In (key, VList l) a <-> In (key, VList l) b).
  Lemma same_table_refl r : same_table r r.
  Proof. split; [|intros a b key l -> [= ->]; reflexivity]. induction (named (op r)); constructor; [split; [reflexivity|apply alike_refl]|assumption]. Qed.
  Definition same_member (k : pystr) (r z : pv) : Prop := alike (M r) (M z) /\ same_shape r z /\ (In k tables -> same_table r z) /\ (k = u "const" -> r = z).
  Lemma same_operand k r z : same_member k r z -> like_operand k (op r) (op z).
  Proof.
    intros (A & S & T & C). constructor; cbn [op raw self]; auto.
    - destruct S as [->|[[a ->] [b ->]]]; reflexivity.
    - intro I. apply T, I.
    - intros I a b key l Ea Eb. eapply T; eassumption.
  Qed.
  Lemma same_members (a b : list (pystr * pv)) : Forall2 (fun x y => fst x = fst y /\ same_member (fst x) (snd x) (snd y)) a b -> alike (M (VDict a)) (M (VDict b)).
  Proof.
    intro F. change (alike (object_meaning matches conforms (map (fun kx => (fst kx, op (snd kx))) a)) (object_meaning matches conforms (map (fun kx => (fst kx, op (snd kx))) b))).
    apply object_alike. intro k. induction F as [|[k1 x] [k2 y] a b [E H] F IH]; [constructor|]. cbn [map fst snd dget] in *. subst k2. destruct (str_eqb_spec k k1) as [->|]; [constructor; apply same_operand, H|exact IH].
  Qed.
  Lemma same_meaning y z : unfolds y z -> part V y -> forall r, resolved (snd y) r ->
    alike (M r) (M z) /\ same_shape r z /\ ((forall d, snd y = VDict d -> dget (u "$ref") d = None) -> same_table r z).
  Proof.
    assert (Eq : forall r z, r = z -> alike (M r) (M z) /\ same_shape r z /\ same_table r z) by (intros r ? <-; split; [apply alike_refl|]; split; [left; reflexivity|apply same_table_refl]).
    revert y z. apply (unfolds_deep auth dig V (fun y z => part V y -> forall r, resolved (snd y) r -> alike (M r) (M z) /\ same_shape r z /\ ((forall d, snd y = VDict d -> dget (u "$ref") d = None) -> same_table r z))).
    - intros x P r H. cbn [snd] in H. apply resolved_refless in H; [|apply refless_array, P]. destruct (Eq r x H) as (A & B & C). auto.
    - intros x Nd P r H. cbn [snd] in H. assert (E : r = x).
      { destruct x; try (inversion H; reflexivity); [|exfalso; eapply Nd; reflexivity]. inversion H as [? C|? m F|]; subst; [reflexivity|]. f_equal. assert (K : forall x r, In x l -> resolved x r -> r = x) by (intros x r I; apply resolved_refless, refless_array; eapply pt_elem; eassumption). clear -F K.
        induction F as [|a b l m H F IHF]; [reflexivity|]. f_equal; [apply (K a b (or_introl eq_refl) H)|]. apply IHF. intros x r I. apply K. right. exact I. }
      destruct (Eq r x E) as (A & B & C). auto.
    - intros d e Nr F P r H. cbn [snd] in *. rewrite (ddel_absent _ _ (pr_anchor V Pr d P)) in F. inversion H as [? _ C| |? er Fr]; subst; [exfalso; eapply C; reflexivity|].
      assert (Nd : NoDup (dkeys d)). { assert (U0 : unfolds (false, VDict d) (VDict e)). { apply un_object; [exact Nr|]. rewrite (ddel_absent _ _ (pr_anchor V Pr d P)). clear -F. induction F as [|? ? ? ? [E1 [E2 _]] F IH]; constructor; [split; auto|exact IH]. } rewrite (member_keys _ _ _ F). eapply unfolds_keys; eassumption. }
      assert (K : Forall2 (fun x y => fst x = fst y /\ same_member (fst x) (snd x) (snd y)) er e).
      { assert (Kd : forall k x, In (k, x) d -> k <> u "$ref" /\ part V (false, x) /\ (k = u "const" -> refless x) /\ (In k tables -> forall tb, x = VDict tb -> dget (u "$ref") tb = None)).
        { intros k x I. assert (Gk : dget k d = Some x) by (apply In_dget; assumption). split; [intros ->; congruence|]. split; [eapply pt_member; eassumption|]. split; [intros -> e' W; eapply (pr_const V Pr d x e' P Gk W)|]. intros It tb ->. eapply (pr_tables V Pr d k tb P It Gk). }
        clear -F Fr Kd Pr Dv. revert er Fr. induction F as [|[k1 x] [k2 z] d e [E1 [U H]] F IHF]; intros er Fr; inversion Fr as [|? [k3 r] ? er' [E3 Hr] Fr']; subst; [constructor|]. cbn [fst snd] in *. subst k2 k3.
        constructor; [|apply IHF; [intros k y I; eapply Kd; right; exact I|exact Fr']]. cbn [fst snd]. split; [reflexivity|]. destruct (Kd k1 x (or_introl eq_refl)) as (Nk & Px & Kc & Kt).
        destruct Hr as [[_ Hr]|[-> _]]; [|congruence]. destruct (H Px r Hr) as (A & B & C). split; [exact A|]. split; [exact B|]. split.
        - intro It. apply C. intros tb ->. eapply Kt; [exact It|reflexivity].
        - intro Ec. rewrite (resolved_refless x (Kc Ec) r Hr). symmetry. exact (unfolds_refless _ _ U Px (Kc Ec)). }
      split; [apply same_members, K|]. split; [right; eauto|]. intros _. split.
      + cbn [op named]. clear -K. induction K as [|x y er e [E1 [A _]] K IH]; constructor; [split; [exact E1|exact A]|exact IH].
      + intros a b key l [= <-] [= <-]. clear -K. induction K as [|[k1 x] [k2 y] er e [E1 [_ [S _]]] K IH]; [reflexivity|]. cbn [fst snd In] in *. subst k2. rewrite IH. destruct S as [->|[[a ->] [b ->]]]; [reflexivity|]. split; (intros [[=]|]; auto).
    - intros d t v p y o e Gr Lo Fd F U IH P r H. cbn [snd] in *. destruct (pr_alone V Pr false d P) as [_ [t' ->]]; [rewrite Gr; discriminate|]. cbn [dget] in Gr. rewrite str_eqb_refl in Gr. injection Gr as ->.
      change (beside [(u "$ref", VStr t)]) with (@nil (pystr * pv)) in F. inversion F; subst. inversion H as [? _ C| |? er Fr]; subst; [exfalso; eapply C; reflexivity|]. inversion Fr as [|? [k T] ? ? [E1 Hr] Fr']; subst. inversion Fr'; subst. cbn [fst snd] in *. subst k.
      destruct Hr as [[C _]|(_ & t2 & v2 & p2 & o2 & [= <-] & Lo2 & I2 & R2)]; [congruence|].
      assert (p2 = p) as -> by (destruct Lo as (E1 & E2 & _), Lo2 as (E3 & E4 & _); congruence). pose proof (finds_inside p o2 y I2 Fd) as ->.
      assert (Py : part V (false, VDict o2)) by (eapply inside_part, I2). destruct (IH Py T R2) as (A & B & _).
      rewrite (update_nil e []) by (exact (unfolds_keys _ _ U Py)). cbn [app]. split; [eapply alike_trans; [apply reference_alone|exact A]|]. split; [right; eauto|]. intro C. specialize (C _ eq_refl). discriminate.
  Qed.
End Readings.

(** C114, the part that holds: validating with a document is validity, in the sense
    of the standard, under the schema with every reference followed. *)
Theorem C114_partial auth dig (strd : heap -> addr -> pystr) fetch (E : env) voc (G : pv -> Prop) w V V' I s w0 v :
  (forall s, G s -> supported E voc G s) -> (exists rest, voc = KwType :: rest) ->
  fit_document auth V -> plain_refs V -> opened w V s w0 ->
  resolved auth V V V' -> unfolds auth dig V (false, V) I -> neat I -> G I -> distinct I -> sharp_inside v -> small_quotients G v -> plain_arrays G v -> plain_names v ->
  exists n0 f0, forall n fuel, n0 <= n -> f0 <= fuel ->
    let outcome := snd (document_validate auth dig strd fetch E voc n fuel s v w0) in
    (outcome = Ok tt <-> valid (means (re_matches E) (fmt_conforms E) V') v) /\
    ((exists e, outcome = Raise (EValid e)) <-> ~ valid (means (re_matches E) (fmt_conforms E) V') v).
Proof.
  intros Hs Htf Ft Pr O R U Ne GI DI S Q T P. set (strx := fun _ : pv => @nil N).
  destruct (C113_inline auth dig strd fetch V w s w0 I strx Ft O U Ne E voc) as [n0 Hn]. exists n0.
  destruct (same_meaning auth dig V (re_matches E) (fmt_conforms E) Pr (proj1 (proj2 Ft)) _ _ U (pt_root V) V' R) as ([Al _] & Sh & _).
  destruct (C112_partial E voc strx G Hs Htf I v [] GI DI S Q T P ltac:(constructor)) as [A Rj]. rewrite <- (Al v) in A, Rj.
  assert (D : exists f0 r, (r = Ok tt \/ exists e, r = Raise (EValid e)) /\ validate pv_view strx E voc f0 I v [] = r).
  { destruct (either E voc strx G Hs Htf I v [] (conj GI DI) (conj S (conj Q T)) P ltac:(constructor)) as [[f H]|(f & e & H)]; rewrite <- (dview_validate strx E voc f I v [] DI) in H; eexists _, _; (split; [|exact H]); eauto. }
  destruct D as (f0 & r & Hr & Hf). exists f0. intros n fuel Ln Lf. cbv zeta. rewrite (Hn n Ln fuel v).
  assert (EI : exists e, I = VDict e) by (destruct (proj1 Ft) as [d Ed]; inversion U as [|? C| |]; subst; [exfalso; eapply C; reflexivity|eauto|eauto]).
  assert (Er : schema_validate pv_view strx E voc fuel I v = r).
  { destruct EI as [e EI]. rewrite EI. unfold schema_validate. cbn [pv_view bind nv_val]. rewrite <- EI. destruct (le_validate pv_view strx E voc f0 fuel I v [] Lf) as [K|K]; [rewrite K in Hf; subst r; destruct Hr as [[=]|(e0 & [=])]|congruence]. }
  rewrite Er. rewrite <- Rj, <- A. split; split.
  - intros ->. exists f0. exact Hf.
  - intros A'. destruct Hr as [->|(e & ->)]; [reflexivity|]. exfalso. eapply (accepts_not_rejects pv_view strx E voc); [exact A'|]. exists f0, e. exact Hf.
  - intros (e & ->). exists f0, e. exact Hf.
  - intros R'. destruct Hr as [->|(e & ->)]; [|eauto]. exfalso. eapply (accepts_not_rejects pv_view strx E voc); [|exact R']. exists f0. exact Hf.
Qed.

(** ** What does not hold *)
Local Open Scope string_scope.
Definition ref_to (t : string) : pv := jdict [("$ref", VStr (u t))].
Definition doc_world (V : pv) : world := fst (make_schema V core (World [] [] [])).
Definition doc_run (V v : pv) : res unit := snd (document_validate toy ex_dig (fun _ _ => []) (fun _ => Raise EFileNotFound) ex_env std_kws 30 30 0 v (doc_world V)).
Definition is_integer : pv := jdict [("type", VStr (u "integer"))].
(** keywords beside a reference *)
Definition beside_doc : pv := jdict [("properties", jdict [("n", jdict [("$ref", VStr (u "#/d")); ("type", VStr (u "string"))])]); ("d", is_integer)].
(** a reference in an array *)
Definition array_doc : pv := jdict [("allOf", VList [ref_to "#/d"]); ("d", is_integer)].
(** the member with the empty name *)
Definition empty_doc : pv := jdict [("properties", jdict [("n", ref_to "#/")]); ("", is_integer)].

Ltac local_ref := eexists; split; [vm_compute; reflexivity|split; [vm_compute; reflexivity|eexists; split; [vm_compute; reflexivity|reflexivity]]].
Ltac resolve_value := apply rs_value; intro; discriminate.
Lemma resolved_integer V : resolved toy V is_integer is_integer.
Proof. apply rs_dict. apply Forall2_cons; [split; [reflexivity|left; split; [discriminate|resolve_value]]|apply Forall2_nil]. Qed.
Lemma resolved_ref V t p e o : (exists v, local toy t v p) -> inside V p (VDict o) -> resolved toy V (VDict o) e ->
  (u "$ref" = u "$ref" /\ exists t' v p' o', VStr t = VStr t' /\ local toy t' v p' /\ inside V p' (VDict o') /\ resolved toy V (VDict o') e).
Proof. intros [v L] H R. split; [reflexivity|]. exists t, v, p, o. auto. Qed.
(** ["if"] beside a reference, ["then"] in its target *)
Definition merge_target : pv := jdict [("then", is_integer)].
Definition merge_doc : pv := jdict [("properties", jdict [("n", jdict [("if", jdict []); ("$ref", VStr (u "#/d"))])]); ("d", merge_target)].

Ltac member_plain tac := split; [reflexivity|left; split; [discriminate|cbn [snd]; tac]].
Ltac member_ref tac := split; [reflexivity|right; eapply resolved_ref; [local_ref|repeat (eapply in_member; [reflexivity|]); apply in_here|tac]].
Ltac members := apply rs_dict; repeat (apply Forall2_cons; [|]); [..|apply Forall2_nil].
Definition n_of (x : pv) (rest : list (string * pv)) : pv := jdict (("properties", jdict [("n", x)]) :: rest).
Lemma n_invalid x rest : ~ valid (std x) VNone -> ~ valid (std (n_of x rest)) (jdict [("n", VNone)]).
Proof.
  intros N H. apply N. exact (st_properties _ _ _ _ H _ eq_refl _ (u "n") _ _ eq_refl (or_introl eq_refl) (or_introl eq_refl)).
Qed.
Lemma null_integer : ~ valid (std is_integer) VNone.
Proof. intro K. destruct (st_type _ _ _ _ K _ eq_refl) as [(t & [= <-] & K')|(l & t & [=] & _)]. vm_compute in K'. discriminate K'. Qed.
Lemma null_ref x rest : ~ valid (std x) VNone -> ~ valid (std (jdict (("$ref", x) :: rest))) VNone.
Proof. intros N H. apply N. exact (st_ref _ _ _ _ H _ eq_refl). Qed.

Lemma merge_null : valid (std (jdict [("if", jdict []); ("$ref", merge_target)])) VNone.
Proof.
  each_keyword.
  - intros _ n Hn. apply tab_get in Hn as (x & Hx & _). discriminate Hx.
  - intros _ n Hn. apply tab_get in Hn as (x & Hx & _). discriminate Hx.
  - unfold merge_target. each_keyword.
Qed.

(** C114 fails on other documents: accepted though invalid, and rejected though valid. *)
Theorem C114_refuted :
  (* a keyword beside a reference gives way to that of the target *)
  (exists V', resolved toy beside_doc beside_doc V' /\ doc_run beside_doc (jdict [("n", VInt 1)]) = Ok tt /\ ~ valid (std V') (jdict [("n", VInt 1)])) /\
  (* a reference in an array is no reference *)
  (exists V', resolved toy array_doc array_doc V' /\ doc_run array_doc VNone = Ok tt /\ ~ valid (std V') VNone) /\
  (* "#/" leads to the whole document *)
  (exists V', resolved toy empty_doc empty_doc V' /\ doc_run empty_doc (jdict [("n", VNone)]) = Ok tt /\ ~ valid (std V') (jdict [("n", VNone)])) /\
  (* keywords on the two sides of a reference are combined *)
  (exists V', resolved toy merge_doc merge_doc V' /\ (exists e, doc_run merge_doc (jdict [("n", VNone)]) = Raise (EValid e)) /\ valid (std V') (jdict [("n", VNone)])).
Proof.
  split; [|split; [|split]].
  - exists (jdict [("properties", jdict [("n", jdict [("$ref", is_integer); ("type", VStr (u "string"))])]); ("d", is_integer)]). split; [|split; [vm_compute; reflexivity|]].
    + members; [member_plain ltac:(members; member_plain ltac:(members; [member_ref ltac:(apply resolved_integer)|member_plain ltac:(resolve_value)]))|member_plain ltac:(apply resolved_integer)].
    + intro H. pose proof (st_properties _ _ _ _ H _ eq_refl _ (u "n") _ _ eq_refl (or_introl eq_refl) (or_introl eq_refl)) as K.
      destruct (st_type _ _ _ _ K _ eq_refl) as [(t & [= <-] & K')|(l & t & [=] & _)]. destruct K' as [K'|[K' _]]; discriminate K'.
  - exists (jdict [("allOf", VList [jdict [("$ref", is_integer)]]); ("d", is_integer)]). split; [|split; [vm_compute; reflexivity|]].
    + members; [member_plain ltac:(apply rs_list; apply Forall2_cons; [members; member_ref ltac:(apply resolved_integer)|apply Forall2_nil])|member_plain ltac:(apply resolved_integer)].
    + intro H. apply (null_ref is_integer []); [exact null_integer|]. exact (st_all _ _ _ _ H _ eq_refl _ (or_introl eq_refl)).
  - exists (n_of (jdict [("$ref", is_integer)]) [("", is_integer)]). split; [|split; [vm_compute; reflexivity|apply n_invalid, null_ref, null_integer]].
    members; [member_plain ltac:(members; member_plain ltac:(members; member_ref ltac:(apply resolved_integer)))|member_plain ltac:(apply resolved_integer)].
  - exists (n_of (jdict [("if", jdict []); ("$ref", merge_target)]) [("d", merge_target)]).
    assert (Rt : resolved toy merge_doc merge_target merge_target) by (members; member_plain ltac:(apply resolved_integer)). split; [|split; [eexists; vm_compute; reflexivity|]].
    + members; [member_plain ltac:(members; member_plain ltac:(members; [member_plain ltac:(members)|member_ref ltac:(exact Rt)]))|member_plain ltac:(exact Rt)].
    + each_keyword. intros d key y s' [= <-] [[= <- <-]|[]] [[= <-]|[]]. exact merge_null.
Qed.

(** ** A case: one definition, used by two properties *)
Definition ref_items (x : pv) : pv := jdict [("type", VStr (u "array")); ("items", x)].
Definition ref_schema (x : pv) : pv := jdict [("type", VStr (u "object")); ("properties", jdict [("a", x); ("b", ref_items x)]); ("$defs", jdict [("name", case_name)])].
Definition ref_doc : pv := ref_schema (ref_to "#/$defs/name").
Definition ref_resolved : pv := ref_schema (jdict [("$ref", case_name)]).
Definition ref_inlined : pv := ref_schema case_name.
Definition ref_schemas (s : pv) : Prop := In s [VBool true; VBool false; case_name; ref_items case_name; ref_inlined].
Lemma ref_supported s : ref_schemas s -> supported ex_env std_kws ref_schemas s.
Proof.
  assert (B : forall d : list (pystr * pv), forallb (fun k => negb (dmem k d)) beyond = true -> forall k, In k beyond -> dget k d = None).
  { intros d H k Ik. rewrite forallb_forall in H. specialize (H k Ik). unfold dmem in H. destruct (dget k d); [discriminate|reflexivity]. }
  unfold ref_schemas at 1. cbn [In]. intro H.
  repeat (destruct H as [<-|H]; [first [left; eexists; reflexivity|right; eexists; (split; [reflexivity|]); (split; [apply B; reflexivity|]); intros k x Hx; destruct k; vm_compute in Hx; try discriminate Hx; injection Hx as <-; (split; [kw_in|])]|]); try destruct H; cbn [usable].
  all: try case_type.
  - split; [eexists; reflexivity|case_type].
  - split; [case_type|]. eexists. split; reflexivity.
  - split; [case_type|]. unfold ref_schemas; cbn [In]; repeat (first [left; reflexivity|right]).
  - eexists. split; [reflexivity|]. intros key s Is. repeat (destruct Is as [[= <- <-]|Is]; [unfold ref_schemas; cbn [In]; repeat (first [left; reflexivity|right])|]). destruct Is.
Qed.
Lemma ref_no_anchor q k : ~ declares ref_doc q k.
Proof.
  intros (d & H & _ & A). apply inside_part, part_listed in H. vm_compute in H. repeat (destruct H as [H|H]; [try discriminate H; injection H as <-; discriminate A|]). destruct H.
Qed.
Lemma resolved_name V : resolved toy V case_name case_name.
Proof. members; member_plain ltac:(resolve_value). Qed.
Lemma ref_resolves : resolved toy ref_doc ref_doc ref_resolved.
Proof.
  assert (Rr : resolved toy ref_doc (ref_to "#/$defs/name") (jdict [("$ref", case_name)])) by (members; member_ref ltac:(apply resolved_name)).
  members; [member_plain ltac:(resolve_value)|member_plain ltac:(members)|member_plain ltac:(members)].
  - member_plain ltac:(exact Rr).
  - member_plain ltac:(members); [member_plain ltac:(resolve_value)|member_plain ltac:(exact Rr)].
  - member_plain ltac:(apply resolved_name).
Qed.
Lemma ref_unfolds : unfolds toy ex_dig ref_doc (false, ref_doc) ref_inlined.
Proof.
  assert (Rn : unfolds toy ex_dig ref_doc (false, case_name) case_name).
  { apply un_object; [reflexivity|]. repeat (apply Forall2_cons; [split; [reflexivity|cbn [snd]; unfold_value]|]). apply Forall2_nil. }
  assert (Rr : unfolds toy ex_dig ref_doc (false, ref_to "#/$defs/name") case_name).
  { assert (Lc : exists v, local toy (u "#/$defs/name") v [u "$defs"; u "name"]) by local_ref. destruct Lc as [v Lc].
    eapply unfolds_is; [eapply (un_ref _ _ _ _ _ v _ _ []); [reflexivity|exact Lc| |apply Forall2_nil|exact Rn]|vm_compute; reflexivity].
    apply fd_steps; [discriminate|intros; apply ref_no_anchor|]. eapply st_member; [apply rd_obj; reflexivity|reflexivity|]. eapply st_member; [apply rd_obj; reflexivity|reflexivity|apply st_here]. }
  apply un_object; [reflexivity|]. repeat (apply Forall2_cons; [|]); [split; [reflexivity|cbn [snd]; unfold_value]|split; [reflexivity|]|split; [reflexivity|]|apply Forall2_nil]; cbn [snd].
  - apply un_object; [reflexivity|]. repeat (apply Forall2_cons; [|]); [split; [reflexivity|exact Rr]|split; [reflexivity|]|apply Forall2_nil]; cbn [snd].
    apply un_object; [reflexivity|]. repeat (apply Forall2_cons; [|]); [split; [reflexivity|cbn [snd]; unfold_value]|split; [reflexivity|exact Rr]|apply Forall2_nil].
  - apply un_object; [reflexivity|]. apply Forall2_cons; [split; [reflexivity|exact Rn]|apply Forall2_nil].
Qed.
Lemma ref_plain : plain_refs ref_doc.
Proof.
  constructor.
  - intros f d P N. apply part_listed in P. vm_compute in P. repeat (destruct P as [P|P]; [try discriminate P; injection P as <- <-; first [exfalso; apply N; reflexivity|split; [reflexivity|eexists; reflexivity]]|]). destruct P.
  - intros d P. apply part_listed in P. vm_compute in P. repeat (destruct P as [P|P]; [try discriminate P; injection P as <-; reflexivity|]). destruct P.
  - intros d k tb P Ik G. apply part_listed in P. vm_compute in P. repeat (destruct P as [P|P]; [try discriminate P; injection P as <-; repeat (destruct Ik as [<-|Ik]; [vm_compute in G; try discriminate G; injection G as <-; reflexivity|]); destruct Ik|]). destruct P.
  - intros d x e P G W. exfalso. apply part_listed in P. vm_compute in P. repeat (destruct P as [P|P]; [try discriminate P; injection P as <-; discriminate G|]). destruct P.
  - intros d [= <-]. reflexivity.
Qed.
Definition ref_good : pv := jdict [("a", VStr (u "ab")); ("b", VList [VStr (u "ax"); VStr (u "ay")])].
Definition ref_bad : pv := jdict [("a", VStr (u "ab")); ("b", VList [VStr (u "ax"); VInt 1])].
Example C114_some : (forall s, ref_schemas s -> supported ex_env std_kws ref_schemas s) /\ (exists rest, std_kws = KwType :: rest) /\
  fit_document toy ref_doc /\ plain_refs ref_doc /\ opened (World [] [] []) ref_doc 0 (doc_world ref_doc) /\
  resolved toy ref_doc ref_doc ref_resolved /\ unfolds toy ex_dig ref_doc (false, ref_doc) ref_inlined /\ neat ref_inlined /\ ref_schemas ref_inlined /\ distinct ref_inlined /\
  (sharp_inside ref_good /\ small_quotients ref_schemas ref_good /\ plain_arrays ref_schemas ref_good /\ plain_names ref_good /\ doc_run ref_doc ref_good = Ok tt /\ valid (std ref_resolved) ref_good) /\
  (sharp_inside ref_bad /\ small_quotients ref_schemas ref_bad /\ plain_arrays ref_schemas ref_bad /\ plain_names ref_bad /\ (exists e, doc_run ref_doc ref_bad = Raise (EValid e)) /\ ~ valid (std ref_resolved) ref_bad).
Proof.
  assert (Ft : fit_document toy ref_doc) by (apply fit_documentb_ok; vm_compute; reflexivity).
  assert (D : distinct ref_inlined) by (apply distinctb_ok; vm_compute; reflexivity).
  assert (Ne : neat ref_inlined) by (apply neatb_ok; reflexivity).
  assert (Gi : ref_schemas ref_inlined) by (unfold ref_schemas; cbn [In]; repeat (first [left; reflexivity|right])).
  assert (O : opened (World [] [] []) ref_doc 0 (doc_world ref_doc)) by reflexivity.
  assert (S1 : sharp_inside ref_good) by (apply case_sharp; reflexivity). assert (S2 : sharp_inside ref_bad) by (apply case_sharp; reflexivity).
  assert (Q : forall v, small_quotients ref_schemas v).
  { intros v p y q d x r _ _ Gd Hx. exfalso. unfold ref_schemas in Gd. cbn [In] in Gd. repeat (destruct Gd as [Gd|Gd]; [try discriminate Gd; injection Gd as <-; vm_compute in Hx; discriminate Hx|]). destruct Gd. }
  assert (T1 : plain_arrays ref_schemas ref_good) by (apply case_arrays; reflexivity). assert (T2 : plain_arrays ref_schemas ref_bad) by (apply case_arrays; reflexivity).
  assert (P1 : plain_names ref_good) by (apply case_plain; reflexivity). assert (P2 : plain_names ref_bad) by (apply case_plain; reflexivity).
  destruct (same_meaning toy ex_dig ref_doc (re_matches ex_env) (fmt_conforms ex_env) ref_plain (proj1 (proj2 Ft)) _ _ ref_unfolds (pt_root ref_doc) _ ref_resolves) as ([Al _] & _).
  pose proof (C112_partial ex_env std_kws (fun _ => []) ref_schemas ref_supported (ex_intro _ _ eq_refl) ref_inlined ref_good [] Gi D S1 (Q _) T1 P1 ltac:(constructor)) as [A _].
  pose proof (C112_partial ex_env std_kws (fun _ => []) ref_schemas ref_supported (ex_intro _ _ eq_refl) ref_inlined ref_bad [] Gi D S2 (Q _) T2 P2 ltac:(constructor)) as [_ R].
  split; [exact ref_supported|]. split; [eexists; reflexivity|]. split; [exact Ft|]. split; [exact ref_plain|]. split; [exact O|]. split; [exact ref_resolves|]. split; [exact ref_unfolds|].
  split; [exact Ne|]. split; [exact Gi|]. split; [exact D|]. split.
  - split; [exact S1|]. split; [apply Q|]. split; [exact T1|]. split; [exact P1|]. split; [vm_compute; reflexivity|]. apply Al, A. exists 20. vm_compute. reflexivity.
  - split; [exact S2|]. split; [apply Q|]. split; [exact T2|]. split; [exact P2|]. split; [eexists; vm_compute; reflexivity|]. rewrite Al. apply R. exists 20. eexists. vm_compute. reflexivity.
Qed.
