(** C113: local references can be replaced by what they refer to. *)
From Verif Require Import PyBase PyBaseFacts PyVal OrderFacts Regex Numbers Uri Pointer PropsPointer Store Errors Validators Keywords Heap HeapFacts PropsWrap PropsPlaces PropsUriEx Doc DocMono DocFacts PropsQuery DocLoad PropsLoad DocDocument PropsAnchor PropsRef Parametric Validate PropsValidate ExBase.
Local Open Scope nat_scope.
Local Notation length := List.length (only parsing).

(** ** The specification: a document with its references replaced *)
Section Unfolds.
  Variables (auth : pystr -> option authority) (dig : N -> option Z) (V : pv).
  (** [unfolds y x]: [x] is the value [y] of the document, each object with a
      ["$ref"] replaced by the object it refers to ([finds], PropsRef.v), over the
      members beside the reference.  Nothing is replaced inside arrays. *)
  Inductive unfolds : item -> pv -> Prop :=
  | un_array x : unfolds (true, x) x
  | un_value x : (forall d, x <> VDict d) -> unfolds (false, x) x
  | un_object d e : dget (u "$ref") d = None -> Forall2 (member (fun x y => unfolds (false, x) y)) (ddel (u "$anchor") d) e ->
      unfolds (false, VDict d) (VDict e)
  | un_ref d t v p y o e : dget (u "$ref") d = Some (VStr t) -> local auth t v p -> finds auth dig V p y ->
      Forall2 (member (fun x y => unfolds (false, x) y)) (beside d) o -> unfolds y (VDict e) ->
      unfolds (false, VDict d) (VDict (updated o e)).
End Unfolds.

(** a value inside a value *)
Inductive within (x : pv) : pv -> Prop :=
| wi_here : within x x
| wi_member d k y : within x (VDict d) -> In (k, y) d -> within x y
| wi_elem l y : within x (VList l) -> In y l -> within x y.

Definition texts (x : pv) : Prop := exists l, x = VList l /\ forall y, In y l -> exists s, y = VStr s.
(** names are given as texts *)
Definition neat (x : pv) : Prop := forall d, within x (VDict d) ->
  (forall k l, k = u "type" \/ k = u "required" -> dget k d = Some (VList l) -> texts (VList l)) /\
  (forall t k y, dget (u "dependentRequired") d = Some (VDict t) -> In (k, y) t -> texts y).

Section Proof.
  Variables (auth : pystr -> option authority) (dig : N -> option Z) (strx : heap -> addr -> pystr) (fetch : uri -> res pv) (V : pv).
  Notation unfolds := (unfolds auth dig V).
  Notation sees := (sees auth dig V).

  Lemma unfolds_deep (P : item -> pv -> Prop) :
    (forall x, P (true, x) x) -> (forall x, (forall d, x <> VDict d) -> P (false, x) x) ->
    (forall d e, dget (u "$ref") d = None -> Forall2 (member (fun x y => unfolds (false, x) y /\ P (false, x) y)) (ddel (u "$anchor") d) e -> P (false, VDict d) (VDict e)) ->
    (forall d t v p y o e, dget (u "$ref") d = Some (VStr t) -> local auth t v p -> finds auth dig V p y ->
      Forall2 (member (fun x y => unfolds (false, x) y /\ P (false, x) y)) (beside d) o -> unfolds y (VDict e) -> P y (VDict e) -> P (false, VDict d) (VDict (updated o e))) ->
    forall y x, unfolds y x -> P y x.
  Proof.
    intros H1 H2 H3 H4. fix IH 3. intros y x U. destruct U as [x|x Nx|d e Nr F|d t v p y o e Gr L Fd F U].
    - apply H1.
    - apply H2, Nx.
    - apply H3; [exact Nr|]. revert F. generalize (ddel (u "$anchor") d) e. fix IF 3. intros l m F. destruct F as [|a b l l' [E1 E2] F]; constructor; [split; [exact E1|split; [exact E2|apply IH, E2]]|]. apply IF, F.
    - eapply H4; [exact Gr|exact L|exact Fd| |exact U|apply IH, U]. revert F. generalize (beside d) o. fix IF 3. intros l m F. destruct F as [|a b l l' [E1 E2] F]; constructor; [split; [exact E1|split; [exact E2|apply IH, E2]]|]. apply IF, F.
  Qed.

  (** *** A finite table of what is seen *)
  Definition entry := (item * pv * nview item)%type.
  Definition listed (tb : list entry) (y : item) (x : pv) : Prop := exists nv, In (y, x, nv) tb.
  Definition good (tb : list entry) (en : entry) : Prop :=
    let '(y, x, nv) := en in part V y /\ sees y nv /\ exists nv2, pv_view x = Ok nv2 /\ like_view (listed tb) nv nv2.
  Definition closed (tb : list entry) : Prop := forall en, In en tb -> good tb en.
  Lemma listed_more tb tb' y x : incl tb tb' -> listed tb y x -> listed tb' y x.
  Proof. intros I [nv H]. exists nv. apply I, H. Qed.
  Lemma like_more {A B} (R S : A -> B -> Prop) w w' : (forall a b, R a b -> S a b) -> like_view R w w' -> like_view S w w'.
  Proof.
    intros H [V1 V2]. split; [|exact V2]. clear V2. destruct V1 as [| | | |l l' F|d d' F]; constructor; [induction F; constructor; auto|]. induction F as [|? ? ? ? [E1 E2] F IH]; constructor; [split; auto|exact IH].
  Qed.
  Lemma good_more tb tb' en : incl tb tb' -> good tb en -> good tb' en.
  Proof. intros I. destruct en as [[y x] nv]. intros (P & S & nv2 & E & L). split; [exact P|]. split; [exact S|]. exists nv2. split; [exact E|]. eapply like_more; [|exact L]. intros a b. apply listed_more, I. Qed.
  Lemma closed_app a b : closed a -> closed b -> closed (a ++ b).
  Proof. intros A B en I. apply in_app_or in I as [I|I]; [eapply good_more; [|apply A, I]; intros ? ?; apply in_or_app; auto|eapply good_more; [|apply B, I]; intros ? ?; apply in_or_app; auto]. Qed.
  Lemma closed_cons en tb : closed tb -> good (en :: tb) en -> closed (en :: tb).
  Proof. intros C G e [<-|I]; [exact G|]. eapply good_more; [|apply C, I]. intros ? ?. right. assumption. Qed.

  (** the tables of several values, together *)
  Lemma closed_members (f : bool) (d e : list (pystr * pv)) : Forall2 (member (fun x y => exists tb, closed tb /\ listed tb (f, x) y)) d e ->
    exists tb, closed tb /\ Forall2 (member (listed tb)) (kids f d) e.
  Proof.
    induction 1 as [|[k x] [k' y] d e [Ek (tb & C & L)] F (tb' & C' & F')]; [exists []; split; [intros ? []|constructor]|]. cbn [fst snd] in *. subst k'.
    exists (tb ++ tb'). split; [apply closed_app; assumption|]. cbn [kids map fst snd]. constructor.
    - split; [reflexivity|]. cbn [snd]. eapply listed_more; [|exact L]. intros ? ?. apply in_or_app. auto.
    - clear -F'. unfold kids in *. induction F' as [|? ? ? ? [E1 E2] F' IH]; constructor; [|exact IH]. split; [exact E1|]. eapply listed_more; [|exact E2]. intros ? ?. apply in_or_app. auto.
  Qed.
  Lemma closed_elems (l : list pv) : Forall (fun x => exists tb, closed tb /\ listed tb (true, x) x) l -> exists tb, closed tb /\ Forall2 (listed tb) (map (pair true) l) l.
  Proof.
    induction 1 as [|x l (tb & C & L) F (tb' & C' & F')]; [exists []; split; [intros ? []|constructor]|].
    exists (tb ++ tb'). split; [apply closed_app; assumption|]. cbn [map]. constructor.
    - eapply listed_more; [|exact L]. intros ? ?. apply in_or_app. auto.
    - clear -F'. induction F' as [|? ? ? ? E F' IH]; constructor; [|exact IH]. eapply listed_more; [|exact E]. intros ? ?. apply in_or_app. auto.
  Qed.
  Lemma listed_cons tb en y x : listed tb y x -> listed (en :: tb) y x.
  Proof. apply listed_more. intros ? ?. right. assumption. Qed.
  Lemma rel_cons tb en d (e : list (pystr * pv)) : Forall2 (member (listed tb)) d e -> Forall2 (member (listed (en :: tb))) d e.
  Proof. induction 1 as [|? ? ? ? [E1 E2] F IH]; constructor; [split; [exact E1|apply listed_cons, E2]|exact IH]. Qed.

  Lemma list_cons tb en d (e : list pv) : Forall2 (listed tb) d e -> Forall2 (listed (en :: tb)) d e.
  Proof. induction 1 as [|? ? ? ? E F IH]; constructor; [apply listed_cons, E|exact IH]. Qed.

  Lemma scalar_table f x : (forall l, x <> VList l) -> (forall d, x <> VDict d) -> part V (f, x) -> exists tb, closed tb /\ listed tb (f, x) x.
  Proof.
    intros Nl Nd P. assert (exists nv nv2, sees (f, x) nv /\ pv_view x = Ok nv2 /\ forall tb, like_view (listed tb) nv nv2) as (nv & nv2 & S & E & L).
    { destruct x; try (exfalso; eapply Nl; reflexivity); try (exfalso; eapply Nd; reflexivity); (eexists _, _; split; [constructor|]; split; [reflexivity|]; split; [constructor|left; reflexivity]). }
    exists [((f, x), x, nv)]. split; [|exists nv; left; reflexivity]. intros en [<-|[]]. split; [exact P|]. split; [exact S|]. exists nv2. auto.
  Qed.
  Lemma array_table l f : (forall x, In x l -> exists tb, closed tb /\ listed tb (true, x) x) -> part V (f, VList l) -> exists tb, closed tb /\ listed tb (f, VList l) (VList l).
  Proof.
    intros H P. destruct (closed_elems l) as (tb & C & F); [apply Forall_forall; exact H|].
    exists (((f, VList l), VList l, NView (NArr (map (pair true) l)) false) :: tb). split; [|eexists; left; reflexivity].
    apply closed_cons; [exact C|]. split; [exact P|]. split; [constructor|]. eexists. split; [reflexivity|]. split; [|left; reflexivity]. cbn [nv_val]. constructor. apply list_cons, F.
  Qed.
  Lemma raw_table x : part V (true, x) -> exists tb, closed tb /\ listed tb (true, x) x.
  Proof.
    induction x as [x Nl Nd|l IH|d IH] using pv_ind_deep; intro P.
    - apply scalar_table; assumption.
    - apply array_table; [|exact P]. rewrite Forall_forall in IH. intros x I. apply IH; [exact I|]. eapply pt_elem; eassumption.
    - destruct (closed_members true d d) as (tb & C & F).
      { assert (K : forall kx, In kx d -> part V (true, snd kx)) by (intros [k x] I; eapply pt_member; eassumption). clear P. induction IH as [|[k x] d Hx IH IHd]; constructor; [|apply IHd; intros; apply K; right; assumption].
        split; [reflexivity|]. apply Hx. apply (K (k, x)). left. reflexivity. }
      exists (((true, VDict d), VDict d, NView (NObj (kids true d)) false) :: tb). split; [|eexists; left; reflexivity].
      apply closed_cons; [exact C|]. split; [exact P|]. split; [constructor|]. eexists. split; [reflexivity|]. split; [|left; reflexivity]. cbn [nv_val]. constructor. apply rel_cons, F.
  Qed.
  Lemma tables (f : bool) (d d' e : list (pystr * pv)) : (forall kx, In kx d' -> In kx d) -> part V (f, VDict d) ->
    Forall2 (member (fun x y => unfolds (f, x) y /\ (part V (f, x) -> exists tb, closed tb /\ listed tb (f, x) y))) d' e ->
    Forall2 (member (fun x y => exists tb, closed tb /\ listed tb (f, x) y)) d' e.
  Proof.
    intros Sub P F. induction F as [|[k x] [k' y] d' e [E1 [_ E2]] F IH]; constructor; [|apply IH; intros; apply Sub; right; assumption].
    split; [exact E1|]. cbn [fst snd] in *. apply E2. eapply pt_member; [exact P|apply Sub; left; reflexivity].
  Qed.
  Lemma table y x : unfolds y x -> part V y -> exists tb, closed tb /\ listed tb y x.
  Proof.
    revert y x. apply (unfolds_deep (fun y x => part V y -> exists tb, closed tb /\ listed tb y x)).
    - apply raw_table.
    - intros x Nd P. destruct x; try (apply scalar_table; [discriminate|discriminate|exact P]); [|exfalso; eapply Nd; reflexivity]. apply array_table; [|exact P]. intros x I. apply raw_table. eapply pt_elem; eassumption.
    - intros d e Nr F P. apply (tables false d) in F; [|intros kx I; eapply In_ddel, I|exact P]. apply closed_members in F as (tb & C & F).
      exists (((false, VDict d), VDict e, NView (NObj (kids false (ddel (u "$anchor") d))) false) :: tb). split; [|eexists; left; reflexivity].
      apply closed_cons; [exact C|]. split; [exact P|]. split; [constructor; exact Nr|]. eexists. split; [reflexivity|]. split; [|left; reflexivity]. cbn [nv_val]. constructor. apply rel_cons, F.
    - intros d t v p y o e Gr L Fd F U IH P. apply (tables false d) in F; [|intros kx I; eapply filter_In, I|exact P]. apply closed_members in F as (tb & C & F).
      destruct IH as (tb' & C' & (nv & I)); [exact (proj1 (proj2 (parts auth dig V)) p y Fd)|]. destruct (C' _ I) as (_ & Sy & nv2 & [= <-] & [Vy _]). cbn [nv_val] in Vy. destruct nv as [nv b]. cbn [nv_val] in Vy. inversion Vy as [| | | | |tgt ? Ft]; subst.
      exists (((false, VDict d), VDict (updated o e), NView (NObj (updated (kids false (beside d)) tgt)) true) :: tb ++ tb'). split; [|eexists; left; reflexivity].
      apply closed_cons; [apply closed_app; assumption|]. split; [exact P|]. split; [eapply se_ref; eassumption|]. eexists. split; [reflexivity|]. split; [|right; eexists; reflexivity]. cbn [nv_val]. constructor.
      apply rel_cons. apply updated_rel.
      + clear -F. induction F as [|? ? ? ? [E1 E2] F IH]; constructor; [|exact IH]. split; [exact E1|]. eapply listed_more; [|exact E2]. intros ? ?. apply in_or_app. auto.
      + clear -Ft. induction Ft as [|? ? ? ? [E1 E2] F IH]; constructor; [|exact IH]. split; [exact E1|]. eapply listed_more; [|exact E2]. intros ? ?. apply in_or_app. auto.
  Qed.

  (** *** Validation with the table *)
  Lemma like_within tb X x nv nv2 : within X x -> pv_view x = Ok nv2 -> like_view (listed tb) nv nv2 -> like_view (fun y b => listed tb y b /\ within X b) nv nv2.
  Proof.
    intros W E [V1 V2]. split; [|exact V2]. clear V2.
    assert (K1 : forall l y, nv_val nv2 = NArr l -> In y l -> within X y). { intros l y El I. destruct x; injection E as <-; try discriminate. injection El as ->. eapply wi_elem; eassumption. }
    assert (K2 : forall d k y, nv_val nv2 = NObj d -> In (k, y) d -> within X y). { intros d0 k y El I. destruct x; injection E as <-; try discriminate. injection El as ->. eapply wi_member; eassumption. }
    clear W E. destruct V1 as [| | | |l l' F|d d' F]; constructor.
    - specialize (K1 l'). assert (K : forall y, In y l' -> within X y) by (intros; apply K1; auto). clear K1 K2. induction F as [|a b l l' H F IH]; constructor; [split; [exact H|apply K; left; reflexivity]|]. apply IH. intros. apply K. right. assumption.
    - specialize (K2 d'). assert (K : forall k y, In (k, y) d' -> within X y) by (intros k y I; eapply K2; eauto). clear K1 K2. induction F as [|a [k b] d d' [H1 H2] F IH]; constructor; [split; [exact H1|split; [exact H2|eapply K; left; reflexivity]]|]. apply IH. intros k0 y I. eapply K. right. exact I.
  Qed.
  Lemma like_map {A B C} (R : A -> B -> Prop) (S : A -> C -> Prop) (T : C -> B -> Prop) v1 v2 v3 : (forall a b c, S a c -> T c b -> R a b) -> rel_view S v1 v3 -> like_view T v3 v2 -> like_view R v1 v2.
  Proof.
    intros H [S1 S2] [T1 T2]. split.
    - destruct v1 as [v1 r1], v2 as [v2 r2], v3 as [v3 r3]. cbn [nv_val nv_ref] in *. clear S2 T2. destruct S1 as [| | | |l l' F|d d' F]; inversion T1 as [| | | |? m F'|? m F']; subst; constructor.
      + revert m T1 F'. induction F as [|a c l l' Hac F IH]; intros m T1 F'; inversion F' as [|? b ? m' Hcb F'']; subst; constructor; [eapply H; eassumption|]. apply IH; [constructor; exact F''|exact F''].
      + revert m T1 F'. induction F as [|[k a] [k' c] l l' [E1 E2] F IH]; intros m T1 F'; inversion F' as [|? [k2 b] ? m' [E3 E4] F'']; subst; constructor; [|apply IH; [constructor; exact F''|exact F'']]. cbn [fst snd] in *. split; cbn [fst snd]; [congruence|eapply H; eassumption].
    - rewrite S2. destruct T2 as [T2|(o & T2)]; [left; exact T2|]. right. rewrite T2 in S1. inversion S1. eauto.
  Qed.
  Lemma sees_elems y nv : sees y nv -> forall l z, nv_val nv = NArr l -> In z l -> fst z = true.
  Proof.
    induction 1; intros l0 z0 El I; cbn [nv_val] in *; try discriminate.
    - injection El as <-. apply in_map_iff in I as (? & <- & _). reflexivity.
    - eapply IHsees; eassumption.
  Qed.
  Lemma sees_raw x nv : sees (true, x) nv -> nv_ref nv = false.
  Proof. intro H. inversion H; reflexivity. Qed.

  Section Bisim.
    Variables (w' : world) (s : nat) (x : schema) (n : nat) (tb : list entry) (X : pv).
    Hypothesis Ctb : closed tb.
    Hypothesis Ag : agree auth dig strx fetch w' s V n (map (fun en : entry => (fst (fst en), snd en)) tb).
    Notation view1 := (see auth dig strx fetch n w').
    Definition same_as (a : addr) (b : pv) : Prop := exists y, is_part auth w' s V a y /\ listed tb y b /\ within X b.
    Lemma same_view a b : same_as a b -> exists v1 v2 y nv, view1 a = Ok v1 /\ pv_view b = Ok v2 /\ like_view same_as v1 v2 /\
      sees y nv /\ is_part auth w' s V a y /\ rel_view (is_part auth w' s V) v1 nv /\ like_view (fun y b => listed tb y b /\ within X b) nv v2.
    Proof.
      intros (y & [Sa P] & [nv I] & W). destruct (Ctb _ I) as (_ & Sy & v2 & E2 & L).
      destruct (Ag y nv) with (a := a) as (v1 & E1 & R1); [apply (in_map (fun en : entry => (fst (fst en), snd en)) tb _ I)|exact Sa|].
      pose proof (like_within tb X b nv v2 W E2 L) as L'. exists v1, v2, y, nv. split; [exact E1|]. split; [exact E2|]. split; [|split; [exact Sy|split; [split; assumption|split; [exact R1|exact L']]]].
      eapply like_map; [|exact R1|exact L']. intros a0 b0 c Hc [Hl Hw]. exists c. auto.
    Qed.
    Lemma same_like a b : same_as a b -> rel_res (like_view same_as) (view1 a) (pv_view b).
    Proof. intro H. destruct (same_view a b H) as (v1 & v2 & y & nv & -> & -> & L & _). constructor. exact L. Qed.
    Lemma same_text a t : same_as a (VStr t) -> view1 a = Ok (NView (NStr t) false).
    Proof. intro H. destruct (same_view _ _ H) as (v1 & v2 & y & nv & -> & [= <-] & [L1 L2] & _). destruct v1 as [v1 f]. cbn [nv_val nv_ref] in *. inversion L1; subst. destruct L2 as [->|(o & [=])]. reflexivity. Qed.
    Lemma same_texts l l' (says : pv -> pystr) : Forall2 same_as l l' -> (forall y, In y l' -> exists t, y = VStr t) ->
      map (item_str view1 (strx (w_heap w'))) l = map (item_str pv_view says) l'.
    Proof.
      induction 1 as [|a b l l' H F IH]; intro T; [reflexivity|]. cbn [map]. rewrite IH by (intros; apply T; right; assumption). f_equal.
      destruct (T b (or_introl eq_refl)) as [t ->]. unfold item_str. rewrite (same_text _ _ H). reflexivity.
    Qed.
    Lemma same_tidy (says : pv -> pystr) a b v1 v2 it it' : neat X -> same_as a b -> view1 a = Ok v1 -> pv_view b = Ok v2 -> nv_val v1 = NObj it -> nv_val v2 = NObj it' ->
      like_members same_as view1 pv_view (strx (w_heap w')) says it it'.
    Proof.
      intros Ne H E1 E2 M1 M2. destruct (same_view _ _ H) as (v1' & v2' & y & nv & E1' & E2' & [L _] & _). rewrite E1 in E1'. injection E1' as <-. rewrite E2 in E2'. injection E2' as <-. rewrite M1, M2 in L.
      assert (F : Forall2 (member same_as) it it') by (inversion L; assumption). clear L.
      assert (W : within X (VDict it')). { destruct H as (? & _ & _ & W). destruct b; injection E2 as <-; try discriminate. injection M2 as ->. exact W. }
      destruct (Ne it' W) as [N1 N2].
      assert (Get : forall k m m', dget k it = Some m -> dget k it' = Some m' -> same_as m m'). { intros k m m' G1 G2. pose proof (member_get same_as it it' k F) as G. rewrite G1, G2 in G. inversion G. assumption. }
      constructor.
      - intros k m m' l l' Hk G1 G2 W1 W2. pose proof (same_like _ _ (Get _ _ _ G1 G2)) as R. rewrite W1, W2 in R. inversion R as [? ? [L _]| |]; subst. cbn [nv_val] in L. inversion L; subst.
        assert (m' = VList l') as -> by (destruct m'; injection W2; intros; subst; try discriminate; reflexivity). destruct (N1 k l' Hk G2) as (l2 & [= <-] & T). apply same_texts; assumption.
      - intros m m' u1 u2 d d' G1 G2 W1 W2 D1 D2. pose proof (same_like _ _ (Get _ _ _ G1 G2)) as R. rewrite W1, W2 in R. inversion R as [? ? [L _]| |]; subst. rewrite D1, D2 in L. inversion L as [| | | | |? ? Fd]; subst.
        assert (m' = VDict d') as ->. { destruct m'; injection W2 as <-; try discriminate. cbn [nv_val] in D2. congruence. }
        specialize (N2 d'). assert (T : forall k z, In (k, z) d' -> texts z) by (intros k z I; eapply N2; eauto). clear -Fd T Ctb Ag.
        induction Fd as [|[k1 a] [k2 z] d d' [Ek Ha] F IH]; constructor; [|apply IH; intros k z0 I; eapply T; right; exact I]. split; [exact Ek|]. cbn [fst snd] in *.
        destruct (T k2 z (or_introl eq_refl)) as (l & -> & Hl). destruct (same_view _ _ Ha) as (v1 & v2 & y & nv & Ea & [= <-] & [L1 L2] & _). destruct v1 as [v1 f]. cbn [nv_val nv_ref] in *. inversion L1 as [| | | |la ? Fl|]; subst. destruct L2 as [->|(o & [=])].
        unfold iter_strs. rewrite Ea. cbn [pv_view bind nv_val nv_ref]. rewrite (same_texts _ _ says Fl Hl). constructor. reflexivity.
      - intros m m' u1 u2 l l' G1 G2 W1 W2 D1 D2. destruct (same_view _ _ (Get _ _ _ G1 G2)) as (v1' & v2' & ym & nvm & W1' & W2' & [L _] & Sy & _ & [R1 _] & [R2 _]). rewrite W1 in W1'. injection W1' as <-. rewrite W2 in W2'. injection W2' as <-.
        rewrite D1, D2 in *. inversion L as [| | | |? ? Fl|]; subst. inversion R1 as [| | | |? li Fi E3 E4|]; subst. rewrite <- E4 in R2. inversion R2 as [| | | |? ? Fj|]; subst.
        assert (Tr : forall z, In z li -> fst z = true) by (intros z I; eapply sees_elems; [exact Sy|symmetry; exact E4|exact I]). clear -Fl Fi Fj Tr Ctb Ag.
        revert l Fl Fi. induction Fj as [|z b li l' [[nv I] Wb] Fj IH]; intros l Fl Fi; inversion Fi as [|a ? l0 ? [Sa Pa] Fi']; subst; constructor.
        + inversion Fl as [|? ? ? ? Hab Fl']; subst. destruct (Ctb _ I) as (_ & Sz & v2 & E2 & Lz). destruct z as [f z]. pose proof (Tr (f, z) (or_introl eq_refl)) as Ef. cbn [fst] in Ef. subst f.
          destruct (Ag (true, z) nv) with (a := a) as (v1 & E1 & [R1 R2]); [apply (in_map (fun en : entry => (fst (fst en), snd en)) tb _ I)|exact Sa|].
          rewrite (sees_raw _ _ Sz) in R2. destruct (same_view _ _ Hab) as (v1' & v2' & ? & ? & E1' & E2' & [L _] & _). rewrite E1 in E1'. injection E1' as <-. unfold enum_item. rewrite E1, E2'. cbn [bind]. rewrite R2.
          assert (nv_ref v2' = false) as ->. { clear -E2'. destruct b; injection E2' as <-; reflexivity. } constructor. exact L.
        + apply IH; [intros; apply Tr; right; assumption| |exact Fi']. inversion Fl. assumption.
    Qed.
  End Bisim.

  (** C113: validating with a document is validating with the value in which every
      reference is replaced; [says] plays no part. *)
  Theorem C113_inline w s w0 V' (says : pv -> pystr) : fit_document auth V -> opened w V s w0 -> unfolds (false, V) V' -> neat V' ->
    forall E voc, exists n0, forall n, n0 <= n -> forall fuel v,
      snd (document_validate auth dig strx fetch E voc n fuel s v w0) = schema_validate pv_view says E voc fuel V' v.
  Proof.
    intros Ft O U Ne E voc. destruct (ready_document auth dig strx fetch w V s w0 Ft O) as (w' & x & L & Hx & Rx & Lx & Dx & A1 & A2).
    destruct (validates auth dig strx fetch E voc V s w0 w' x) as [n1 Hv]; [repeat split; assumption|].
    destruct (table (false, V) V' U (pt_root V)) as (tb & C & Lt).
    destruct (see_agrees auth dig strx fetch w' s V x Hx Rx Lx Dx A1 A2 (map (fun en : entry => (fst (fst en), snd en)) tb)) as [n2 Ag].
    { intros y nv I. apply in_map_iff in I as ([[y' b] nv'] & [= -> ->] & I). destruct (C _ I) as (P & S & _). auto. }
    exists (max n1 n2). intros n Hn fuel v. rewrite Hv by lia. specialize (Ag n ltac:(lia)).
    apply (schema_validate_alike (same_as w' s tb V')).
    - intros a b. apply (same_like w' s n tb V' C Ag).
    - intros a b v1 v2 it it' H. apply (same_tidy w' s n tb V' C Ag says a b v1 v2 it it' Ne H).
    - exists (false, V). split; [|split; [exact Lt|constructor]]. split; [split; [exact Lx|exact Dx]|apply pt_root].
  Qed.
End Proof.

(** ** Cases *)
(** the same definition used twice, once with members beside the reference *)
Definition C113_n : list (pystr * pv) := [(u "type", VList [VStr (u "number"); VStr (u "null")]); (u "minimum", VInt 3)].
Definition C113_value : pv := VDict [
  (u "defs", VDict [(u "n", VDict C113_n)]);
  (u "properties", VDict [(u "a", VDict [(u "$ref", VStr (u "#/defs/n"))]); (u "b", VDict [(u "maximum", VInt 7); (u "$ref", VStr (u "#/defs/n")); (u "minimum", VInt 5)])])].
Definition C113_inlined : pv := VDict [
  (u "defs", VDict [(u "n", VDict C113_n)]);
  (u "properties", VDict [(u "a", VDict C113_n); (u "b", VDict [(u "maximum", VInt 7); (u "minimum", VInt 3); (u "type", VList [VStr (u "number"); VStr (u "null")])])])].
Lemma C113_none q k : ~ declares C113_value q k.
Proof.
  assert (H : forall v, (fix ok (v : pv) : bool := match v with VDict d => negb (dmem (u "$anchor") d) && forallb (fun kx => ok (snd kx)) d | _ => true end) v = true -> forall q d, inside v q (VDict d) -> dget (u "$anchor") d = None).
  { intros v Hv q' d I. remember (VDict d) as y eqn:Ey. revert Hv. induction I as [v|d1 k' x p y G _ IH]; intro Hv; subst.
    - apply andb_prop in Hv as [Hv _]. unfold dmem in Hv. destruct (dget (u "$anchor") d); [discriminate|reflexivity].
    - apply IH; [reflexivity|]. apply andb_prop in Hv as [_ Hv]. rewrite forallb_forall in Hv. apply (Hv (k', x)). apply dget_In, G. }
  intros (d & I & _ & A). rewrite (H C113_value eq_refl q d I) in A. discriminate.
Qed.
Lemma unfolds_is auth dig V y x x' : unfolds auth dig V y x -> x = x' -> unfolds auth dig V y x'.
Proof. intros H <-. exact H. Qed.
Ltac unfold_value := apply un_value; intro; discriminate.
Lemma C113_unfolds : unfolds toy ex_dig C113_value (false, C113_value) C113_inlined.
Proof.
  assert (Rn : unfolds toy ex_dig C113_value (false, VDict C113_n) (VDict C113_n)).
  { apply un_object; [reflexivity|]. change (ddel (u "$anchor") C113_n) with C113_n. repeat (apply Forall2_cons; [split; [reflexivity|cbn [snd]; unfold_value]|]). apply Forall2_nil. }
  assert (Lc : exists v, local toy (u "#/defs/n") v [u "defs"; u "n"]) by (eexists; split; [vm_compute; reflexivity|split; [vm_compute; reflexivity|eexists; split; [vm_compute; reflexivity|reflexivity]]]). destruct Lc as [v Lc].
  assert (Fd : finds toy ex_dig C113_value [u "defs"; u "n"] (false, VDict C113_n)).
  { apply fd_steps; [discriminate|intros; apply C113_none|]. eapply st_member; [apply rd_obj; reflexivity|reflexivity|]. eapply st_member; [apply rd_obj; reflexivity|reflexivity|apply st_here]. }
  apply un_object; [reflexivity|]. change (ddel (u "$anchor") _) with (match C113_value with VDict d => d | _ => [] end). cbn [C113_value].
  apply Forall2_cons; [split; [reflexivity|]; cbn [snd]|apply Forall2_cons; [split; [reflexivity|]; cbn [snd]|apply Forall2_nil]].
  - apply un_object; [reflexivity|]. change (ddel (u "$anchor") ?d) with d. apply Forall2_cons; [split; [reflexivity|exact Rn]|apply Forall2_nil].
  - apply un_object; [reflexivity|]. change (ddel (u "$anchor") ?d) with d.
    apply Forall2_cons; [split; [reflexivity|]; cbn [snd]|apply Forall2_cons; [split; [reflexivity|]; cbn [snd]|apply Forall2_nil]].
    + eapply unfolds_is; [eapply (un_ref _ _ _ _ _ v _ _ []); [reflexivity|exact Lc|exact Fd|apply Forall2_nil|exact Rn]|vm_compute; reflexivity].
    + eapply unfolds_is; [eapply (un_ref _ _ _ _ _ v _ _ [(u "maximum", VInt 7); (u "minimum", VInt 5)]); [reflexivity|exact Lc|exact Fd| |exact Rn]|vm_compute; reflexivity].
      change (beside _) with [(u "maximum", VInt 7); (u "minimum", VInt 5)]. repeat (apply Forall2_cons; [split; [reflexivity|cbn [snd]; unfold_value]|]). apply Forall2_nil.
Qed.
(** [neat], decided *)
Definition textsb (x : pv) : bool := match x with VList l => forallb (fun y => match y with VStr _ => true | _ => false end) l | _ => false end.
Fixpoint neatb (x : pv) : bool :=
  match x with
  | VDict d => forallb (fun kx => neatb (snd kx)) d
      && match dget (u "type") d with Some (VList l) => textsb (VList l) | _ => true end
      && match dget (u "required") d with Some (VList l) => textsb (VList l) | _ => true end
      && match dget (u "dependentRequired") d with Some (VDict t) => forallb (fun kx => textsb (snd kx)) t | _ => true end
  | VList l => forallb neatb l
  | _ => true
  end.
Lemma textsb_ok x : textsb x = true -> texts x.
Proof. destruct x; try discriminate. intro H. exists l. split; [reflexivity|]. intros y I. cbn [textsb] in H. rewrite forallb_forall in H. specialize (H y I). destruct y; try discriminate. eauto. Qed.
Lemma neatb_within x y : within x y -> neatb x = true -> neatb y = true.
Proof.
  induction 1 as [|d k y _ IH I|l y _ IH I]; intro H; [exact H| |]; specialize (IH H); cbn [neatb] in IH.
  - apply andb_prop in IH as [IH _]. apply andb_prop in IH as [IH _]. apply andb_prop in IH as [IH _]. rewrite forallb_forall in IH. exact (IH _ I).
  - rewrite forallb_forall in IH. exact (IH _ I).
Qed.
Lemma neatb_ok x : neatb x = true -> neat x.
Proof.
  intros H d W. apply neatb_within in W; [|exact H]. cbn [neatb] in W. apply andb_prop in W as [W W3]. apply andb_prop in W as [W W2]. apply andb_prop in W as [_ W1]. split.
  - intros k l [-> | ->] G; [rewrite G in W1|rewrite G in W2]; apply textsb_ok; assumption.
  - intros t k y G I. rewrite G in W3. rewrite forallb_forall in W3. apply textsb_ok. exact (W3 _ I).
Qed.
Definition C113_world : world := fst (make_schema C113_value core (World [] [] [])).
Example C113_some : fit_document toy C113_value /\ opened (World [] [] []) C113_value 0 C113_world /\
  unfolds toy ex_dig C113_value (false, C113_value) C113_inlined /\ neat C113_inlined /\
  let run v := snd (document_validate toy ex_dig C69_str C69_fetch ex_env all_keywords 20 20 0 v C113_world) in
  run (VDict [(u "a", VInt 9); (u "b", VInt 4)]) = Ok tt /\
  (exists e, run (VDict [(u "a", VInt 2)]) = Raise (EValid e)) /\ (exists e, run (VDict [(u "b", VInt 9)]) = Raise (EValid e)).
Proof.
  split; [apply fit_documentb_ok; vm_compute; reflexivity|]. split; [reflexivity|]. split; [exact C113_unfolds|]. split; [apply neatb_ok; reflexivity|].
  cbv zeta. split; [vm_compute; reflexivity|]. split; eexists; vm_compute; reflexivity.
Qed.
