(** C118: documents that refer to themselves, against JSON Schema 2020-12. *)
From Verif Require Import PyBase PyBaseFacts PyVal OrderFacts Regex Numbers Uri Pointer PropsPointer Store Errors Validators Keywords Spec LeafFacts RunFacts KeywordFacts Master Heap HeapFacts PropsWrap PropsPlaces PropsUriEx Doc DocMono DocFacts PropsQuery DocLoad PropsLoad DocDocument PropsAnchor PropsRef Parametric Validate PropsValidate PropsInline PropsErrors PropsTotal Mono Claims Standard PropsStandard PropsRefStandard ExBase.
From Coq Require Import QArith.
Local Open Scope nat_scope.
Local Notation length := List.length (only parsing).

(** ** The specification *)
(** A schema that refers to itself means whatever satisfies the equations of the
    standard: [P] reads the document if each schema object in it ([G] are its
    schemas) means what [Standard.object_meaning] makes of its members, the operand
    of ["$ref"] being the object referred to (Core 8.2.3.1). *)
Section Reading.
  Variables (auth : pystr -> option authority) (V : pv) (matches conforms : pystr -> pystr -> Prop).
  Definition operand_of (P : pv -> meaning) (kx : pystr * pv) (ko : pystr * operand) : Prop :=
    fst ko = fst kx /\ raw (snd ko) = snd kx /\
    each (snd ko) = (match snd kx with VList l => map P l | _ => [] end) /\
    Standard.named (snd ko) = (match snd kx with VDict e => map (fun ky => (fst ky, P (snd ky))) e | _ => [] end) /\
    (fst kx <> u "$ref" -> self (snd ko) = P (snd kx)) /\
    (forall t v p o, fst kx = u "$ref" -> snd kx = VStr t -> local auth t v p -> inside V p (VDict o) -> self (snd ko) = P (VDict o)).
  Record reading (G : pv -> Prop) (P : pv -> meaning) : Prop := {
    rd_bool : forall b, alike (P (VBool b)) (Meaning (fun _ => b = true) (fun _ _ => False));
    rd_object : forall d, G (VDict d) -> exists t, Forall2 (operand_of P) d t /\ alike (P (VDict d)) (object_meaning matches conforms t)
  }.

  (** References lead to objects of the document, and no schema is applied again to
      the value it is being applied to ([rk] says so). *)
  Record guarded (G : pv -> Prop) (rk : pv -> nat) : Prop := {
    gd_leads : forall d x, within V (VDict d) -> dget (u "$ref") d = Some x -> exists t v p o, x = VStr t /\ local auth t v p /\ inside V p (VDict o);
    gd_ref : forall d t v p o, within V (VDict d) -> dget (u "$ref") d = Some (VStr t) -> local auth t v p -> inside V p (VDict o) -> rk (VDict o) < rk (VDict d);
    gd_stays : forall d k x s, G (VDict d) -> dget (kw_key k) d = Some x -> stays k x s -> G s -> rk s < rk (VDict d)
  }.
  (** a schema of the document: supported, or a reference to one *)
  Definition schema_in (E : env) (voc : list akw) (G : pv -> Prop) (s : pv) : Prop :=
    (forall d, s = VDict d -> within V (VDict d)) /\
    (supported E voc G s \/ exists t v p o, s = VDict [(u "$ref", VStr t)] /\ local auth t v p /\ inside V p (VDict o) /\ G (VDict o)).
End Reading.

(** ** Following references *)
Fixpoint walk (v : pv) (p : list pystr) : option pv :=
  match p with
  | [] => Some v
  | k :: p => match v with VDict d => match dget k d with Some x => walk x p | None => None end | _ => None end
  end.
Lemma inside_walk v p x : inside v p x -> walk v p = Some x.
Proof. induction 1 as [|d k x p y G _ IH]; [reflexivity|]. cbn [walk]. rewrite G. exact IH. Qed.
Lemma within_some V x : within V x -> exists f, part V (f, x).
Proof. induction 1 as [|d k y _ [f IH] I|l y _ [f IH] I]; [exists false; apply pt_root|exists f; eapply pt_member; eassumption|exists true; eapply pt_elem; eassumption]. Qed.
Lemma part_within V y : part V y -> within V (snd y).
Proof. induction 1 as [|f d k x _ IH I|f l x _ IH I]; [apply wi_here|eapply wi_member; eassumption|eapply wi_elem; eassumption]. Qed.
Lemma part_distinct V : distinct V -> forall y, part V y -> distinct (snd y).
Proof. intro D. induction 1 as [|f d k x _ IH I|f l x _ IH I]; [exact D| |]; apply distinct_inv in IH; [exact (proj2 IH k x I)|exact (IH x I)]. Qed.

Section Follow.
  Variables (auth : pystr -> option authority) (dig : N -> option Z) (V : pv) (G : pv -> Prop) (rk : pv -> nat).
  Hypothesis Pr : plain_refs V.
  Hypothesis Dv : distinct V.
  Hypothesis Gu : guarded auth V G rk.
  Definition refers_to (t : pystr) : option (list (pystr * pv)) :=
    match mk_uri auth t with
    | Ok v => match pointer_parse (u_frag v) with Ok p => match walk V p with Some (VDict o) => Some o | _ => None end | _ => None end
    | _ => None
    end.
  Lemma refers t v p o : local auth t v p -> inside V p (VDict o) -> refers_to t = Some o.
  Proof. intros (E1 & E2 & _) I. unfold refers_to. rewrite E1, E2, (inside_walk _ _ _ I). reflexivity. Qed.
  Fixpoint follow (n : nat) (d : list (pystr * pv)) : res (nview pv) :=
    match n with
    | O => OutOfFuel
    | S n => match dget (u "$ref") d with
             | None => plain_dicts d
             | Some (VStr t) => match refers_to t with
                                | Some o => match follow n o with Ok w => Ok (NView (nv_val w) true) | r => r end
                                | None => Raise (EKey t)
                                end
             | Some _ => Raise EType
             end
    end.
  Definition fdict (d : list (pystr * pv)) : res (nview pv) := follow (S (rk (VDict d))) d.
  Notation view := (rview fdict).
  Lemma follow_wf n : forall d w m, follow n d = Ok w -> nv_val w = NObj m -> NoDup (dkeys m).
  Proof.
    induction n as [|n IH]; intros d w m H Hm; [discriminate|]. cbn [follow] in H. destruct (dget (u "$ref") d) as [[| | | | |t| |]|]; try discriminate H.
    - destruct (refers_to t) as [o|]; [|discriminate H]. destruct (follow n o) as [w'|e|] eqn:F; try discriminate H. injection H as <-. exact (IH o w' m F Hm).
    - injection H as <-. injection Hm as <-. apply NoDup_fold_dset. constructor.
  Qed.
  Lemma view_wf : wf_view view.
  Proof. intros n w m H Hm. destruct n; try (injection H as <-; discriminate Hm). exact (follow_wf _ _ _ _ H Hm). Qed.

  (** [lands d o r]: the object [d] is, or refers (then [r]) to, the object [o] *)
  Inductive lands : list (pystr * pv) -> list (pystr * pv) -> bool -> Prop :=
  | l_here d : dget (u "$ref") d = None -> lands d d false
  | l_hop t v p o e r : local auth t v p -> inside V p (VDict o) -> lands o e r -> lands [(u "$ref", VStr t)] e true.
  Lemma follow_lands n : forall d f, part V (f, VDict d) -> rk (VDict d) < n -> exists o r, follow n d = Ok (NView (NObj o) r) /\ lands d o r.
  Proof.
    induction n as [|n IH]; intros d f P L; [lia|]. cbn [follow]. destruct (dget (u "$ref") d) as [x|] eqn:Hr.
    - destruct (pr_alone V Pr f d P) as [-> [t ->]]; [rewrite Hr; discriminate|]. destruct (gd_leads _ _ _ _ Gu _ _ (part_within V _ P) Hr) as (t' & v & p & o & -> & Lo & I).
      cbn [dget] in Hr. rewrite str_eqb_refl in Hr. injection Hr as <-.
      rewrite (refers t v p o Lo I). destruct (IH o false) as (e & r & F & La); [exact (inside_part V p _ I)| |].
      + pose proof (gd_ref _ _ _ _ Gu [(u "$ref", VStr t)] t v p o (part_within V _ P) eq_refl Lo I). lia.
      + exists e, true. rewrite F. split; [reflexivity|]. eapply l_hop; eassumption.
    - exists d, false. split; [|apply l_here, Hr]. apply plain_dict. exact (proj1 (distinct_inv _ (part_distinct V Dv _ P))).
  Qed.
  Lemma seen_lands d f : part V (f, VDict d) -> exists o r, view (VDict d) = Ok (NView (NObj o) r) /\ lands d o r.
  Proof. intro P. apply (follow_lands _ d f P). lia. Qed.
  Lemma lands_part d o r : lands d o r -> forall f, part V (f, VDict d) -> exists g, part V (g, VDict o).
  Proof. induction 1 as [d|t v p o e r Lo I La IH]; intros f P; [eauto|]. exact (IH false (inside_part V p _ I)). Qed.
  Lemma lands_rank d o r : lands d o r -> forall f, part V (f, VDict d) -> rk (VDict o) <= rk (VDict d).
  Proof.
    induction 1 as [d|t v p o e r Lo I La IH]; intros f P; [lia|]. pose proof (IH false (inside_part V p _ I)).
    destruct (pr_alone V Pr f _ P) as [-> _]; [discriminate|]. pose proof (gd_ref _ _ _ _ Gu [(u "$ref", VStr t)] t v p o (part_within V _ P) eq_refl Lo I). lia.
  Qed.
  Lemma lands_plain d o r : lands d o r -> dget (u "$ref") o = None.
  Proof. induction 1; assumption. Qed.

  (** *** What the package sees is this *)
  Lemma inside_steps x p o : inside x p (VDict o) -> part V (false, x) -> steps auth dig V (false, x) p (false, VDict o).
  Proof.
    intro H. remember (VDict o) as y eqn:Ey. induction H as [v|d k x p y Gk I IH]; intro P; [constructor|]. specialize (IH Ey).
    assert (Nr : dget (u "$ref") d = None).
    { destruct (dget (u "$ref") d) as [z|] eqn:Hr; [|reflexivity]. exfalso. destruct (pr_alone V Pr false d P) as [_ [t ->]]; [rewrite Hr; discriminate|].
      cbn [dget] in Gk. destruct (str_eqb k (u "$ref")); [|discriminate]. injection Gk as <-. subst y. inversion I. }
    eapply PropsRef.st_member; [apply rd_obj, Nr| |apply IH; eapply pt_member; [exact P|apply dget_In, Gk]].
    unfold under. rewrite (ddel_absent _ _ (pr_anchor V Pr d P)), Gk. reflexivity.
  Qed.
  Lemma inside_finds p o : inside V p (VDict o) -> finds auth dig V p (false, VDict o).
  Proof.
    intro I. apply fd_steps; [|intros k q _; apply (none_declared V Pr)|apply inside_steps; [exact I|apply pt_root]].
    intros ->. inversion I as [|d k x q y Gk I']; subst. rewrite (pr_root _ Pr d eq_refl) in Gk. discriminate.
  Qed.
  Definition is_it (y : item) (b : pv) : Prop := snd y = b.
  Lemma kids_are f d : Forall2 (member is_it) (kids f d) d.
  Proof. induction d as [|[k x] d IH]; constructor; [split; reflexivity|exact IH]. Qed.
  Lemma elems_are l : Forall2 is_it (map (pair true) l) l.
  Proof. induction l; constructor; [reflexivity|assumption]. Qed.
  Lemma lands_sees d o r : lands d o r -> part V (false, VDict d) -> exists it, sees auth dig V (false, VDict d) (NView (NObj it) r) /\ Forall2 (member is_it) it o.
  Proof.
    induction 1 as [d Nr|t v p o e r Lo I La IH]; intro P.
    - exists (kids false d). split; [|apply kids_are]. rewrite <- (ddel_absent _ _ (pr_anchor V Pr d P)) at 2. apply se_obj, Nr.
    - pose proof (inside_part V p _ I) as Po. destruct (IH Po) as (it & S & F). exists it. split; [|exact F].
      assert (N : NoDup (dkeys it)). { rewrite (member_keys _ _ _ F). destruct (lands_part _ _ _ La _ Po) as [g Pe]. exact (proj1 (distinct_inv _ (part_distinct V Dv _ Pe))). }
      pose proof (se_ref auth dig V [(u "$ref", VStr t)] t v p (false, VDict o) it r eq_refl Lo (inside_finds p o I) S) as K.
      replace (updated (kids false (beside [(u "$ref", VStr t)])) it) with it in K; [exact K|]. symmetry. exact (fold_dset_nil it N).
  Qed.
  Lemma same_sight y : part V y -> exists nv nv2, sees auth dig V y nv /\ view (snd y) = Ok nv2 /\ rel_view is_it nv nv2.
  Proof.
    intro P. destruct y as [f x]. cbn [snd]. destruct x as [| | | | | |l|d]; try (eexists _, _; split; [constructor|]; split; [reflexivity|]; split; [constructor|reflexivity]).
    - apply elems_are.
    - destruct (seen_lands d f P) as (o & r & Hv & La). rewrite Hv. destruct f.
      + inversion La as [? Nr|t v p o' ? ? Lo I La']; subst; [|destruct (pr_alone V Pr true _ P) as [[=] _]; discriminate].
        eexists _, _. split; [apply se_raw|]. split; [reflexivity|]. split; [|reflexivity]. constructor. apply kids_are.
      + destruct (lands_sees d o r La P) as (it & S & F). eexists _, _. split; [exact S|]. split; [reflexivity|]. split; [|reflexivity]. constructor. exact F.
  Qed.

  (** *** Validation with it *)
  Section Bisim.
    Variables (strd : heap -> addr -> pystr) (fetch : uri -> res pv) (w' : world) (s : nat) (n : nat) (tb : list (item * nview item)) (says : pv -> pystr).
    Hypothesis Ctb : covers V (fun y nv => sees auth dig V y nv /\ exists nv2, view (snd y) = Ok nv2 /\ rel_view is_it nv nv2) tb.
    Hypothesis Ag : agree auth dig strd fetch w' s V n tb.
    Hypothesis Ne : neat V.
    Notation view1 := (see auth dig strd fetch n w').
    Definition same_as (a : addr) (b : pv) : Prop := exists y, is_part auth w' s V a y /\ snd y = b.
    Lemma same_view a b : same_as a b -> exists v1 v2, view1 a = Ok v1 /\ view b = Ok v2 /\ rel_view same_as v1 v2.
    Proof.
      intros (y & [Sa P] & <-). destruct (proj2 Ctb y P) as [nv I]. destruct (proj1 Ctb y nv I) as (_ & _ & v2 & E2 & R2). destruct (Ag y nv I a Sa) as (v1 & E1 & R1).
      exists v1, v2. split; [exact E1|]. split; [exact E2|]. eapply rel_view_map; [|exact R1|exact R2]. intros x z c Hx Hz. exists c. split; assumption.
    Qed.
    Lemma same_like a b : same_as a b -> rel_res (like_view same_as) (view1 a) (view b).
    Proof. intro H. destruct (same_view a b H) as (v1 & v2 & -> & -> & [R1 R2]). constructor. split; [exact R1|left; exact R2]. Qed.
    Lemma same_texts l l' : Forall2 same_as l l' -> (forall y, In y l' -> exists t, y = VStr t) -> map (item_str view1 (strd (w_heap w'))) l = map (item_str view says) l'.
    Proof.
      induction 1 as [|a b l l' H F IH]; intro T; [reflexivity|]. cbn [map]. rewrite IH by (intros; apply T; right; assumption). f_equal.
      destruct (T b (or_introl eq_refl)) as [t ->]. unfold item_str. destruct (same_view _ _ H) as (v1 & v2 & -> & [= <-] & [R1 R2]). destruct v1 as [v1 f]. cbn [nv_val nv_ref] in *. inversion R1; subst. reflexivity.
    Qed.
    Lemma same_tidy a b v1 v2 it it' : same_as a b -> view1 a = Ok v1 -> view b = Ok v2 -> nv_val v1 = NObj it -> nv_val v2 = NObj it' ->
      like_members same_as view1 view (strd (w_heap w')) says it it'.
    Proof.
      intros H E1 E2 M1 M2. destruct (same_view _ _ H) as (v1' & v2' & E1' & E2' & [L _]). rewrite E1 in E1'. injection E1' as <-. rewrite E2 in E2'. injection E2' as <-. rewrite M1, M2 in L.
      assert (F : Forall2 (member same_as) it it') by (inversion L; assumption). clear L.
      assert (W : within V (VDict it')).
      { destruct H as (y & [_ P] & <-). destruct y as [f x]. cbn [snd] in *. destruct x; try (injection E2 as <-; discriminate M2). destruct (seen_lands _ _ P) as (o & r & Hv & La). rewrite Hv in E2. injection E2 as <-. injection M2 as <-.
        destruct (lands_part _ _ _ La _ P) as [g Pg]. exact (part_within V _ Pg). }
      destruct (Ne it' W) as [N1 N2].
      assert (Get : forall k m m', dget k it = Some m -> dget k it' = Some m' -> same_as m m'). { intros k m m' G1 G2. pose proof (member_get same_as it it' k F) as K. rewrite G1, G2 in K. inversion K. assumption. }
      constructor.
      - intros k m m' l l' Hk G1 G2 W1 W2. destruct (same_view _ _ (Get _ _ _ G1 G2)) as (u1 & u2 & U1 & U2 & [R _]). rewrite W1 in U1. rewrite W2 in U2. injection U1 as <-. injection U2 as <-. cbn [nv_val] in R. inversion R; subst.
        assert (m' = VList l') as ->.
        { destruct (Get _ _ _ G1 G2) as (y & [_ P] & <-). destruct y as [f x]. cbn [snd] in *. destruct x; try discriminate W2; [injection W2 as <-; reflexivity|]. destruct (seen_lands _ _ P) as (o & r & Hv & _). rewrite Hv in W2. discriminate W2. }
        destruct (N1 k l' Hk G2) as (l2 & [= <-] & T). apply same_texts; assumption.
      - intros m m' u1 u2 d d' G1 G2 W1 W2 D1 D2. destruct (same_view _ _ (Get _ _ _ G1 G2)) as (x1 & x2 & U1 & U2 & [R _]). rewrite W1 in U1. rewrite W2 in U2. injection U1 as <-. injection U2 as <-. rewrite D1, D2 in R. inversion R as [| | | | |? ? Fd]; subst.
        assert (K : exists e, m' = VDict e). { destruct m'; try (injection W2 as <-; discriminate D2). eauto. } destruct K as [e ->].
        assert (T : forall k z, In (k, z) d' -> texts z).
        { destruct H as (y0 & [_ P0] & Eb). destruct (within_some V _ W) as [g Pg].
          assert (Ee : dget (u "$ref") e = None).
          { destruct g; [|eapply (pr_tables V Pr it' _ e Pg); [|exact G2]; cbn; tauto].
            destruct (dget (u "$ref") e) eqn:Hr; [|reflexivity]. destruct (pr_alone V Pr true e) as [[=] _]; [eapply pt_member; [exact Pg|apply dget_In, G2]|rewrite Hr; discriminate]. }
          assert (Ve : view (VDict e) = Ok (NView (NObj e) false)).
          { cbn [rview]. unfold fdict. cbn [follow]. rewrite Ee. apply plain_dict. pose proof (part_distinct V Dv _ Pg) as Dd. cbn [snd] in Dd. apply distinct_inv in Dd as [_ Dd]. exact (proj1 (distinct_inv _ (Dd _ _ (dget_In _ _ _ G2)))). }
          rewrite Ve in W2. injection W2 as <-. injection D2 as <-. intros k z I. eapply N2; eassumption. }
        clear -Fd T Ctb Ag. induction Fd as [|[k1 a] [k2 z] d d' [Ek Ha] F IH]; constructor; [|apply IH; intros k z0 I; eapply T; right; exact I]. split; [exact Ek|]. cbn [fst snd] in *.
        destruct (T k2 z (or_introl eq_refl)) as (l & -> & Hl). destruct (same_view _ _ Ha) as (x1 & x2 & Ea & [= <-] & [R1 R2]). destruct x1 as [x1 f]. cbn [nv_val nv_ref] in *. subst f. inversion R1 as [| | | |la ? Fl|]; subst.
        unfold iter_strs. rewrite Ea. cbn [rview bind nv_val nv_ref]. rewrite (same_texts _ _ Fl Hl). constructor. reflexivity.
      - intros m m' u1 u2 l l' G1 G2 W1 W2 D1 D2. destruct (same_view _ _ (Get _ _ _ G1 G2)) as (x1 & x2 & U1 & U2 & [R _]). rewrite W1 in U1. rewrite W2 in U2. injection U1 as <-. injection U2 as <-. rewrite D1, D2 in R. inversion R as [| | | |? ? Fl|]; subst.
        clear -Fl Ctb Ag. induction Fl as [|a b l l' H F IH]; constructor; [|exact IH]. destruct (same_view _ _ H) as (x1 & x2 & E1 & E2 & [R1 R2]). unfold enum_item. rewrite E1, E2. cbn [bind]. rewrite R2. destruct (nv_ref x2); constructor. exact R1.
    Qed.
  End Bisim.

  (** validating with the document is validating with [view] *)
  Lemma validates_view (strd : heap -> addr -> pystr) fetch w s w0 (says : pv -> pystr) : fit_document auth V -> opened w V s w0 -> neat V ->
    forall E voc, exists n0, forall n, n0 <= n -> forall fuel v,
      snd (document_validate auth dig strd fetch E voc n fuel s v w0) = schema_validate view says E voc fuel V v.
  Proof.
    intros Ft O Ne E voc. destruct (ready_document auth dig strd fetch w V s w0 Ft O) as (w' & x & L & Hx & Rx & Lx & Dx & A1 & A2).
    destruct (validates auth dig strd fetch E voc V s w0 w' x) as [n1 Hv]; [repeat split; assumption|].
    destruct (covering V (fun y nv => sees auth dig V y nv /\ exists nv2, view (snd y) = Ok nv2 /\ rel_view is_it nv nv2)) as (tb & C).
    { intros y P. destruct (same_sight y P) as (nv & nv2 & S & Hn & R). exists nv. split; [exact S|]. exists nv2. split; assumption. }
    destruct (see_agrees auth dig strd fetch w' s V x Hx Rx Lx Dx A1 A2 tb) as [n2 Ag].
    { intros y nv I. destruct (proj1 C y nv I) as (P & S & _). auto. }
    exists (max n1 n2). intros n Hn fuel v. rewrite Hv by lia. specialize (Ag n ltac:(lia)).
    apply (schema_validate_alike (same_as w' s)).
    - intros a b. apply (same_like strd fetch w' s n tb C Ag).
    - intros a b v1 v2 it it' H. apply (same_tidy strd fetch w' s n tb says C Ag Ne a b v1 v2 it it' H).
    - exists (false, V). split; [|reflexivity]. split; [split; [exact Lx|exact Dx]|apply pt_root].
  Qed.
End Follow.

(** ** Every reading of the document is what the package does *)
Lemma lone_reference matches conforms (op : operand) v : object_valid matches conforms [(u "$ref", op)] v <-> valid (self op) v.
Proof.
  split.
  - intro H. exact (st_ref _ _ _ _ H _ eq_refl).
  - intro H. constructor; try (intros m Hm; discriminate Hm). intros m [= <-]. exact H.
Qed.
Lemma inside_one v p x y : inside v p x -> inside v p y -> x = y.
Proof. intros A B. apply inside_walk in A. apply inside_walk in B. congruence. Qed.
Lemma local_one auth t v p v' p' : local auth t v p -> local auth t v' p' -> p = p'.
Proof. intros (A1 & A2 & _) (B1 & B2 & _). congruence. Qed.

Section Agree.
  Variables (auth : pystr -> option authority) (V : pv) (E : env) (voc : list akw) (G : pv -> Prop) (rk : pv -> nat) (P : pv -> meaning).
  Hypothesis Pr : plain_refs V.
  Hypothesis Dv : distinct V.
  Hypothesis Gu : guarded auth V G rk.
  Hypothesis HG : forall s, G s -> schema_in auth V E voc G s.
  Hypothesis HP : reading auth V (re_matches E) (fmt_conforms E) G P.
  Hypothesis Htf : exists rest, voc = KwType :: rest.

  Lemma plain_operands d t : dget (u "$ref") d = None -> Forall2 (operand_of auth V P) d t -> t = tab P d.
  Proof.
    intros Nr F. apply dget_None in Nr. induction F as [|[k x] [k' o] d t (E1 & E2 & E3 & E4 & E5 & _) F IH]; [reflexivity|]. cbn [fst snd] in *. subst k'. cbn [tab map fst snd].
    rewrite IH by (intro I; apply Nr; right; exact I). f_equal. f_equal. destruct o as [r s e n]. cbn [raw self each Standard.named] in *. unfold opd. rewrite E2, E3, E4, E5; [reflexivity|]. intros ->. apply Nr. left. reflexivity.
  Qed.
  Lemma object_reading d : G (VDict d) -> dget (u "$ref") d = None -> forall v, valid (P (VDict d)) v <-> object_valid (re_matches E) (fmt_conforms E) (tab P d) v.
  Proof. intros W Nr v. destruct (rd_object _ _ _ _ _ _ HP d W) as (t & F & A & _). rewrite (plain_operands d t Nr F) in A. exact (A v). Qed.
  Lemma ref_reading t v p o : G (VDict [(u "$ref", VStr t)]) -> local auth t v p -> inside V p (VDict o) -> forall y, valid (P (VDict [(u "$ref", VStr t)])) y <-> valid (P (VDict o)) y.
  Proof.
    intros W L I y. destruct (rd_object _ _ _ _ _ _ HP _ W) as (tb & F & A & _). rewrite (A y). inversion F as [|? [k op] ? l (E1 & _ & _ & _ & _ & E6) F']; subst. inversion F'; subst. cbn [fst snd] in *. subst k.
    rewrite <- (E6 t v p o eq_refl eq_refl L I). exact (lone_reference _ _ op y).
  Qed.
  Lemma G_within d : G (VDict d) -> within V (VDict d).
  Proof. intro Gd'. exact (proj1 (HG _ Gd') d eq_refl). Qed.
  Lemma lands_schema d o r : lands auth V d o r -> G (VDict d) -> G (VDict o) /\ object_supported E voc G o /\
    forall v, valid (P (VDict d)) v <-> object_valid (re_matches E) (fmt_conforms E) (tab P o) v.
  Proof.
    induction 1 as [d Nr|t v p o e r L I La IH]; intro Gd'.
    - split; [exact Gd'|]. split; [|exact (object_reading d Gd' Nr)]. destruct (proj2 (HG _ Gd')) as [[[b [=]]|(d' & [= <-] & B & H)]|(t & v & p & o & [= ->] & _)]; [split; assumption|discriminate Nr].
    - destruct (proj2 (HG _ Gd')) as [[[b [=]]|(d' & [= <-] & B & H)]|(t' & v' & p' & o' & [= <-] & L' & I' & Go)]; [discriminate (B (u "$ref") (or_introl eq_refl))|].
      rewrite (local_one _ _ _ _ _ _ L L') in I. pose proof (inside_one _ _ _ _ I I') as [= ->]. destruct (IH Go) as (K1 & K2 & K3). split; [exact K1|]. split; [exact K2|].
      intro y. rewrite (ref_reading t v' p' o' Gd' L' I' y). apply K3.
  Qed.
  Lemma recursive_agreement strx s v c : G s -> distinct s -> sharp_inside v /\ small_quotients G v /\ plain_arrays G v -> plain_names v -> plain c ->
    (Accepts (rview (fdict auth V rk)) strx E voc s v c <-> valid (P s) v) /\ (Rejects (rview (fdict auth V rk)) strx E voc s v c <-> ~ valid (P s) v) /\
    (Accepts (rview (fdict auth V rk)) strx E voc s v c \/ Rejects (rview (fdict auth V rk)) strx E voc s v c).
  Proof.
    apply (agreement E voc strx G (fdict auth V rk) P rk (view_wf auth V rk)).
    - intros x [Gx Dx]. destruct (HG x Gx) as [W K]. destruct x as [|b| | | | | |d]; try (exfalso; destruct K as [[[b [=]]|(d' & [=] & _)]|(t & v' & p & o & [=] & _)]; fail); [left; eauto|right].
      destruct (within_some V _ (W d eq_refl)) as [f Pd]. destruct (seen_lands auth V G rk Pr Dv Gu d f Pd) as (o & r & Hv & La). destruct (lands_schema d o r La Gx) as (Go & So & Ho).
      destruct (lands_part auth V _ _ _ La _ Pd) as [g Po]. exists o, r. split; [eexists; reflexivity|]. split; [exact Hv|]. split; [split; [exact Go|exact (part_distinct V Dv _ Po)]|]. split; [exact So|]. split; [|exact Ho].
      exact (lands_rank auth V G rk Pr Gu _ _ _ La f Pd).
    - intros d k tb [Gd' Dd] _ It Hk. destruct (within_some V _ (G_within d Gd')) as [f Pd].
      assert (Ee : dget (u "$ref") tb = None).
      { destruct f; [|exact (pr_tables V Pr d k tb Pd It Hk)].
        destruct (dget (u "$ref") tb) eqn:Hr; [|reflexivity]. destruct (pr_alone V Pr true tb) as [[=] _]; [eapply pt_member; [exact Pd|apply dget_In, Hk]|rewrite Hr; discriminate]. }
      unfold fdict. cbn [follow]. rewrite Ee. apply plain_dict. apply dget_In in Hk. exact (proj1 (distinct_inv _ (proj2 (distinct_inv _ Dd) _ _ Hk))).
    - intros d k x s' [Gd' _] _ Hx St Gs. exact (gd_stays _ _ _ _ Gu d k x s' Gd' Hx St Gs).
    - intros b y. exact (proj1 (rd_bool _ _ _ _ _ _ HP b) y).
    - exact Htf.
  Qed.
End Agree.

(** C118, the part that holds: whatever reading of the document the standard
    admits, the values accepted are the valid ones and the others are rejected. *)
Theorem C118_partial auth dig (strd : heap -> addr -> pystr) fetch (E : env) voc (G : pv -> Prop) rk (P : pv -> meaning) w V s w0 v :
  (forall s, G s -> schema_in auth V E voc G s) -> (exists rest, voc = KwType :: rest) ->
  fit_document auth V -> plain_refs V -> neat V -> guarded auth V G rk -> opened w V s w0 ->
  reading auth V (re_matches E) (fmt_conforms E) G P -> G V -> sharp_inside v -> small_quotients G v -> plain_arrays G v -> plain_names v ->
  exists n0 f0, forall n fuel, n0 <= n -> f0 <= fuel ->
    let outcome := snd (document_validate auth dig strd fetch E voc n fuel s v w0) in
    (outcome = Ok tt <-> valid (P V) v) /\ ((exists e, outcome = Raise (EValid e)) <-> ~ valid (P V) v).
Proof.
  intros HG Htf Ft Pr Ne Gu O HP GV S Q T Pn. pose proof (proj1 (proj2 Ft)) as Dv. set (strx := fun _ : pv => @nil N). set (view := rview (fdict auth V rk)).
  destruct (validates_view auth dig V G rk Pr Dv Gu strd fetch w s w0 strx Ft O Ne E voc) as [n0 Hn]. exists n0. fold view in Hn.
  destruct (recursive_agreement auth V E voc G rk P Pr Dv Gu HG HP Htf strx V v [] GV Dv (conj S (conj Q T)) Pn ltac:(constructor)) as (A & Rj & Ei). fold view in A, Rj, Ei.
  assert (D : exists f0 r, (r = Ok tt \/ exists e, r = Raise (EValid e)) /\ validate view strx E voc f0 V v [] = r).
  { destruct Ei as [[f H]|(f & e & H)]; eexists _, _; (split; [|exact H]); eauto. }
  destruct D as (f0 & r & Hr & Hf). exists f0. intros n fuel Ln Lf. cbv zeta. rewrite (Hn n Ln fuel v).
  assert (Er : schema_validate view strx E voc fuel V v = r).
  { destruct (proj1 Ft) as [d Ed]. assert (Pd : part V (false, VDict d)) by (rewrite <- Ed; apply pt_root).
    destruct (seen_lands auth V G rk Pr Dv Gu d false Pd) as (o & b & Hv & _). rewrite <- Ed in Hv. fold view in Hv.
    unfold schema_validate. rewrite Hv. cbn [bind nv_val]. destruct (le_validate view strx E voc f0 fuel V v [] Lf) as [K|K]; [rewrite K in Hf; subst r; destruct Hr as [[=]|(e0 & [=])]|congruence]. }
  rewrite Er. rewrite <- Rj, <- A. split; split.
  - intros ->. exists f0. exact Hf.
  - intros A'. destruct Hr as [->|(e & ->)]; [reflexivity|]. exfalso. eapply (accepts_not_rejects view strx E voc); [exact A'|]. exists f0, e. exact Hf.
  - intros (e & ->). exists f0, e. exact Hf.
  - intros R'. destruct Hr as [->|(e & ->)]; [|eauto]. exfalso. eapply (accepts_not_rejects view strx E voc); [|exact R']. exists f0. exact Hf.
Qed.

(** ** There is one reading *)
(** An object means the same under two readings that agree below it. *)
Section Local.
  Variables (matches conforms : pystr -> pystr -> Prop) (E : env) (voc : list akw) (G : pv -> Prop) (d : list (pystr * pv)) (v : pv) (P1 P2 : pv -> meaning) (low : pv -> Prop).
  Hypothesis Hd : object_supported E voc G d.
  Hypothesis HB : forall b y, valid (P1 (VBool b)) y <-> valid (P2 (VBool b)) y.
  Hypothesis H1 : forall s y, G s -> (weight y < weight v)%nat -> (valid (P1 s) y <-> valid (P2 s) y).
  Hypothesis H2 : forall s, G s -> low s -> (valid (P1 s) v <-> valid (P2 s) v) /\ forall key, evaluates (P1 s) v key <-> evaluates (P2 s) v key.
  Hypothesis Hst : forall k x s, dget (kw_key k) d = Some x -> stays k x s -> G s -> low s.
  Notation V2 s := (proj1 (H2 s _ _)) (only parsing).
  Lemma use k x : dget (kw_key k) d = Some x -> usable E G d k x.
  Proof. intro Hx. exact (proj2 (proj2 Hd k x Hx)). Qed.
  Lemma at_v k x s : dget (kw_key k) d = Some x -> stays k x s -> G s -> (valid (P1 s) v <-> valid (P2 s) v) /\ forall key, evaluates (P1 s) v key <-> evaluates (P2 s) v key.
  Proof. intros Hx St Gs. exact (H2 s Gs (Hst k x s Hx St Gs)). Qed.
  Lemma no_prefix (P : pv -> meaning) : dget (u "prefixItems") (tab P d) = None.
  Proof. rewrite dget_tab. destruct (dget (u "prefixItems") d) eqn:Hx; [destruct (use KwPrefixItems _ Hx)|reflexivity]. Qed.
  Lemma no_ref (P : pv -> meaning) : dget (u "$ref") (tab P d) = None.
  Proof. rewrite dget_tab, (proj1 Hd (u "$ref") (or_introl eq_refl)). reflexivity. Qed.
  Lemma named_keys P Q x key s : In (key, s) (Standard.named (opd P x)) -> exists s', In (key, s') (Standard.named (opd Q x)).
  Proof. destruct x; cbn [opd Standard.named]; try (intros []; fail). intro I. apply in_map_iff in I as ([k y] & [= <- <-] & I). exists (Q y). apply in_map_iff. exists (k, y). auto. Qed.
  Lemma listed_tab P Q key : listed (tab P d) key -> listed (tab Q d) key.
  Proof. intros (m & s & Hm & I). apply tab_get in Hm as (x & Hx & ->). destruct (named_keys P Q x key s I) as [s' I']. exists (opd Q x), s'. split; [exact (tab_some _ _ _ _ Hx)|exact I']. Qed.
  Lemma matched_tab P Q key : matched matches (tab P d) key -> matched matches (tab Q d) key.
  Proof. intros (m & p & s & Hm & I & Mt). apply tab_get in Hm as (x & Hx & ->). destruct (named_keys P Q x p s I) as [s' I']. exists (opd Q x), p, s'. split; [exact (tab_some _ _ _ _ Hx)|]. split; assumption. Qed.
  Lemma evaluated_local key : evaluated matches (tab P1 d) v key -> evaluated matches (tab P2 d) v key.
  Proof.
    intros [H|[H|[H|[H|[H|[H|[H|[H|H]]]]]]]].
    - left. exact (listed_tab P1 P2 key H).
    - right; left. exact (matched_tab P1 P2 key H).
    - right; right; left. destruct H as [m Hm]. apply tab_get in Hm as (x & Hx & ->). exists (opd P2 x). exact (tab_some _ _ _ _ Hx).
    - right; right; right; left. destruct H as (m & s & Hm & Is & Ev). apply tab_get in Hm as (x & Hx & ->). destruct (use KwAllOf x Hx) as (l & -> & Hl). apply in_map_iff in Is as (y & <- & Iy).
      exists (opd P2 (VList l)), (P2 y). split; [exact (tab_some _ _ _ _ Hx)|]. split; [apply in_map, Iy|]. apply (at_v KwAllOf _ y Hx); [exists l; auto|exact (Hl y Iy)|exact Ev].
    - do 4 right; left. destruct H as (k & m & s & [-> | ->] & Hm & Is & Va & Ev); apply tab_get in Hm as (x & Hx & ->).
      + destruct (use KwAnyOf x Hx) as (l & -> & _ & Hl). apply in_map_iff in Is as (y & <- & Iy). destruct (at_v KwAnyOf _ y Hx) as [K1 K2]; [exists l; auto|exact (Hl y Iy)|].
        exists (u "anyOf"), (opd P2 (VList l)), (P2 y). split; [left; reflexivity|]. split; [exact (tab_some _ _ _ _ Hx)|]. split; [apply in_map, Iy|]. split; [apply K1, Va|apply K2, Ev].
      + destruct (use KwOneOf x Hx) as (l & -> & _ & Hl). apply in_map_iff in Is as (y & <- & Iy). destruct (at_v KwOneOf _ y Hx) as [K1 K2]; [exists l; auto|exact (Hl y Iy)|].
        exists (u "oneOf"), (opd P2 (VList l)), (P2 y). split; [right; reflexivity|]. split; [exact (tab_some _ _ _ _ Hx)|]. split; [apply in_map, Iy|]. split; [apply K1, Va|apply K2, Ev].
    - do 5 right; left. destruct H as (m & Hm & Va & Ev). apply tab_get in Hm as (x & Hx & ->). destruct (use KwIf x Hx) as (_ & Gx & _). destruct (at_v KwIf x x Hx eq_refl Gx) as [K1 K2].
      exists (opd P2 x). split; [exact (tab_some _ _ _ _ Hx)|]. split; [apply K1, Va|]. destruct Ev as [Ev|(n & Hn & Ev)]; [left; apply K2, Ev|right].
      apply tab_get in Hn as (y & Hy & ->). destruct (use KwThen y Hy) as (_ & Gy). exists (opd P2 y). split; [exact (tab_some _ _ _ _ Hy)|]. exact (proj1 (proj2 (at_v KwThen y y Hy eq_refl Gy) key) Ev).
    - do 6 right; left. destruct H as (m & n & Hm & Va & Hn & Ev). apply tab_get in Hm as (x & Hx & ->). apply tab_get in Hn as (y & Hy & ->). destruct (use KwIf x Hx) as (_ & Gx & _). destruct (use KwElse y Hy) as (_ & Gy).
      exists (opd P2 x), (opd P2 y). split; [exact (tab_some _ _ _ _ Hx)|]. split; [intro N; apply Va; exact (proj2 (proj1 (at_v KwIf x x Hx eq_refl Gx)) N)|]. split; [exact (tab_some _ _ _ _ Hy)|].
      exact (proj1 (proj2 (at_v KwElse y y Hy eq_refl Gy) key) Ev).
    - do 7 right; left. destruct H as (m & k & s & e & Hm & Ee & Ik & Is & Ev). apply tab_get in Hm as (x & Hx & ->). destruct (use KwDependentSchemas x Hx) as (tb & -> & Ht). apply in_map_iff in Is as ([k' y] & [= <- <-] & Iy).
      exists (opd P2 (VDict tb)), k', (P2 y), e. split; [exact (tab_some _ _ _ _ Hx)|]. split; [exact Ee|]. split; [exact Ik|]. split; [exact (in_named P2 tb k' y Iy)|].
      refine (proj1 (proj2 (at_v KwDependentSchemas _ y Hx _ (Ht k' y Iy)) key) Ev). exists tb, k'. auto.
    - destruct H as (m & Hm & _). rewrite no_ref in Hm. discriminate Hm.
  Qed.
  Lemma count_local P Q (l : list pv) n : (forall y, In y l -> (P y <-> Q y)) -> count P l n -> count Q l n.
  Proof.
    intros A C. induction C as [|x l n Hx _ IH|x l n Hx _ IH]; [apply count_nil|apply count_yes; [apply A; [left; reflexivity|exact Hx]|apply IH; intros; apply A; right; assumption]|].
    apply count_no; [rewrite <- A; [exact Hx|left; reflexivity]|apply IH; intros; apply A; right; assumption].
  Qed.
End Local.
Section Local2.
  Variables (matches conforms : pystr -> pystr -> Prop) (E : env) (voc : list akw) (G : pv -> Prop) (d : list (pystr * pv)) (v : pv) (P1 P2 : pv -> meaning) (low : pv -> Prop).
  Hypothesis Hd : object_supported E voc G d.
  Hypothesis HB : forall b y, valid (P1 (VBool b)) y <-> valid (P2 (VBool b)) y.
  Hypothesis H1 : forall s y, G s -> (weight y < weight v)%nat -> (valid (P1 s) y <-> valid (P2 s) y).
  Hypothesis H2 : forall s, G s -> low s -> (valid (P1 s) v <-> valid (P2 s) v) /\ forall key, evaluates (P1 s) v key <-> evaluates (P2 s) v key.
  Hypothesis Hst : forall k x s, dget (kw_key k) d = Some x -> stays k x s -> G s -> low s.
  Notation use := (use E voc G d Hd).
  Notation at_v := (at_v G d v P1 P2 low H2 Hst).
  Lemma evaluated_iff key : evaluated matches (tab P1 d) v key <-> evaluated matches (tab P2 d) v key.
  Proof.
    split; [exact (evaluated_local matches E voc G d v P1 P2 low Hd H2 Hst key)|]. apply (evaluated_local matches E voc G d v P2 P1 low Hd); [|exact Hst].
    intros s Gs Ls. destruct (H2 s Gs Ls) as [A B]. split; [symmetry; exact A|]. intro k. symmetry. apply B.
  Qed.
  Lemma valid_local : object_valid matches conforms (tab P1 d) v -> object_valid matches conforms (tab P2 d) v.
  Proof.
    intro H. constructor; intros m Hm; apply tab_get in Hm as (x & Hx & ->); pose proof (tab_some P1 _ _ _ Hx) as Hm.
    - exact (st_type _ _ _ _ H _ Hm).
    - exact (st_enum _ _ _ _ H _ Hm).
    - exact (st_const _ _ _ _ H _ Hm).
    - exact (st_multiple _ _ _ _ H _ Hm).
    - exact (st_max _ _ _ _ H _ Hm).
    - exact (st_xmax _ _ _ _ H _ Hm).
    - exact (st_min _ _ _ _ H _ Hm).
    - exact (st_xmin _ _ _ _ H _ Hm).
    - exact (st_max_length _ _ _ _ H _ Hm).
    - exact (st_min_length _ _ _ _ H _ Hm).
    - exact (st_pattern _ _ _ _ H _ Hm).
    - exact (st_max_items _ _ _ _ H _ Hm).
    - exact (st_min_items _ _ _ _ H _ Hm).
    - exact (st_unique _ _ _ _ H _ Hm).
    - intros l El. destruct (st_contains _ _ _ _ H _ Hm l El) as (n & C & B1 & B2). destruct (use KwContains x Hx) as (_ & _ & Gx & _). exists n.
      split; [eapply count_local; [|exact C]; intros y Iy; apply H1; [exact Gx|rewrite El; exact (weight_elem _ _ Iy)]|].
      rewrite dget_tab in B1. rewrite dget_tab. split; [destruct (dget (u "minContains") d); exact B1|].
      intros b Hb. apply tab_get in Hb as (y & Hy & ->). exact (B2 _ (tab_some P1 _ _ _ Hy)).
    - exact (st_max_properties _ _ _ _ H _ Hm).
    - exact (st_min_properties _ _ _ _ H _ Hm).
    - exact (st_required _ _ _ _ H _ Hm).
    - exact (st_dependent_required _ _ _ _ H _ Hm).
    - exact (st_format _ _ _ _ H _ Hm).
    - destruct (use KwAllOf x Hx) as (l & -> & Hl). intros s Is. apply in_map_iff in Is as (y & <- & Iy). apply (at_v KwAllOf _ y Hx); [exists l; auto|exact (Hl y Iy)|]. exact (st_all _ _ _ _ H _ Hm _ (in_map P1 _ _ Iy)).
    - destruct (use KwAnyOf x Hx) as (l & -> & _ & Hl). destruct (st_any _ _ _ _ H _ Hm) as (s & Is & Va). apply in_map_iff in Is as (y & <- & Iy). exists (P2 y). split; [apply in_map, Iy|].
      apply (at_v KwAnyOf _ y Hx); [exists l; auto|exact (Hl y Iy)|exact Va].
    - destruct (use KwOneOf x Hx) as (l & -> & _ & Hl). destruct (st_one _ _ _ _ H _ Hm) as (a & s & b & Es & Va & No). cbn [opd each] in *.
      apply map_eq_app in Es as (la & lb & -> & <- & Es). destruct lb as [|y lb]; [discriminate Es|]. cbn [map] in Es. injection Es as <- <-.
      assert (K : forall z, In z (la ++ y :: lb) -> (valid (P1 z) v <-> valid (P2 z) v)). { intros z Iz. apply (at_v KwOneOf _ z Hx); [eexists; split; [reflexivity|exact Iz]|exact (Hl z Iz)]. }
      exists (map P2 la), (P2 y), (map P2 lb). split; [rewrite map_app; reflexivity|]. split; [apply K; [apply in_or_app; right; left; reflexivity|exact Va]|].
      intros s' Is'. rewrite <- map_app in Is', No. apply in_map_iff in Is' as (z & <- & Iz). rewrite <- K; [apply No, in_map, Iz|]. apply in_app_or in Iz as [Iz|Iz]; apply in_or_app; [left; exact Iz|right; right; exact Iz].
    - destruct (use KwNot x Hx) as (_ & Gx). intro N. apply (st_not _ _ _ _ H _ Hm). exact (proj2 (proj1 (at_v KwNot x x Hx eq_refl Gx)) N).
    - destruct (use KwIf x Hx) as (_ & Gx & _). intros Va n Hn. apply tab_get in Hn as (y & Hy & ->). destruct (use KwThen y Hy) as (_ & Gy). apply (at_v KwThen y y Hy eq_refl Gy).
      refine (st_then _ _ _ _ H _ Hm _ _ (tab_some P1 _ _ _ Hy)). exact (proj2 (proj1 (at_v KwIf x x Hx eq_refl Gx)) Va).
    - destruct (use KwIf x Hx) as (_ & Gx & _). intros Va n Hn. apply tab_get in Hn as (y & Hy & ->). destruct (use KwElse y Hy) as (_ & Gy). apply (at_v KwElse y y Hy eq_refl Gy).
      refine (st_else _ _ _ _ H _ Hm _ _ (tab_some P1 _ _ _ Hy)). intro N. apply Va. exact (proj1 (proj1 (at_v KwIf x x Hx eq_refl Gx)) N).
    - destruct (use KwDependentSchemas x Hx) as (tb & -> & Ht). intros key s e Ee Ik Is. apply in_map_iff in Is as ([k' y] & [= <- <-] & Iy).
      refine (proj1 (proj1 (at_v KwDependentSchemas _ y Hx _ (Ht k' y Iy))) _); [exists tb, k'; auto|]. exact (st_dependent_schemas _ _ _ _ H _ Hm _ _ _ Ee Ik (in_named P1 tb k' y Iy)).
    - destruct (use KwPrefixItems x Hx).
    - destruct (use KwItems x Hx) as (_ & Gx). intros l i y El _ Iy. apply H1; [exact Gx|rewrite El; exact (weight_elem _ _ (nth_error_In _ _ Iy))|].
      refine (st_items _ _ _ _ H _ Hm l i y El _ Iy). unfold before_items. rewrite (no_prefix E voc G d Hd P1). lia.
    - destruct (use KwProperties x Hx) as (tb & -> & Ht). intros e key y s Ee Iy Is. apply in_map_iff in Is as ([k' z] & [= <- <-] & Iz). apply H1; [exact (Ht k' z Iz)|rewrite Ee; exact (weight_member _ _ _ Iy)|].
      exact (st_properties _ _ _ _ H _ Hm _ _ _ _ Ee Iy (in_named P1 tb k' z Iz)).
    - destruct (use KwPatternProperties x Hx) as (tb & -> & Ht). intros e key y p s Ee Iy Is Mt. apply in_map_iff in Is as ([k' z] & [= <- <-] & Iz). apply H1; [exact (proj1 (proj2 (Ht k' z Iz)))|rewrite Ee; exact (weight_member _ _ _ Iy)|].
      exact (st_pattern_properties _ _ _ _ H _ Hm _ _ _ _ _ Ee Iy (in_named P1 tb k' z Iz) Mt).
    - pose proof (use KwAdditionalProperties x Hx) as Gx. intros e key y Ee Iy N1 N2. apply H1; [exact Gx|rewrite Ee; exact (weight_member _ _ _ Iy)|].
      refine (st_additional _ _ _ _ H _ Hm _ _ _ Ee Iy _ _); [intro N; exact (N1 (listed_tab d P1 P2 key N))|intro N; exact (N2 (matched_tab matches d P1 P2 key N))].
    - destruct (use KwPropertyNames x Hx) as (_ & Gx). intros e key y Ee Iy. apply H1; [exact Gx| |exact (st_names _ _ _ _ H _ Hm _ _ _ Ee Iy)].
      rewrite Ee. pose proof (weight_member _ _ _ Iy). assert (1 <= weight y)%nat by (destruct y; cbn [weight]; lia). cbn [weight] in *. lia.
    - intros e key y Ee Iy N. assert (K : valid (P1 x) y) by (refine (st_unevaluated _ _ _ _ H _ Hm _ _ _ Ee Iy _); rewrite evaluated_iff; exact N).
      destruct (use KwUnevaluatedProperties x Hx) as [->|(-> & _)]; apply HB; exact K.
    - rewrite (no_ref E voc G d Hd P1) in Hm. discriminate Hm.
  Qed.
End Local2.
(** ... so both ways, and for the members evaluated *)
Lemma local_alike matches conforms E voc (G : pv -> Prop) d v P1 P2 (low : pv -> Prop) : object_supported E voc G d ->
  (forall b y, valid (P1 (VBool b)) y <-> valid (P2 (VBool b)) y) ->
  (forall s y, G s -> (weight y < weight v)%nat -> (valid (P1 s) y <-> valid (P2 s) y)) ->
  (forall s, G s -> low s -> (valid (P1 s) v <-> valid (P2 s) v) /\ forall key, evaluates (P1 s) v key <-> evaluates (P2 s) v key) ->
  (forall k x s, dget (kw_key k) d = Some x -> stays k x s -> G s -> low s) ->
  (valid (object_meaning matches conforms (tab P1 d)) v <-> valid (object_meaning matches conforms (tab P2 d)) v) /\
  forall key, evaluates (object_meaning matches conforms (tab P1 d)) v key <-> evaluates (object_meaning matches conforms (tab P2 d)) v key.
Proof.
  intros Hd HB H1 H2 Hst. split.
  - cbn [object_meaning valid]. split; eapply valid_local; try eassumption; intros; try (symmetry; auto; fail). destruct (H2 s H H0) as [A B]. split; [symmetry; exact A|]. intro k. symmetry. apply B.
  - intro key. cbn [object_meaning evaluates]. rewrite (evaluated_iff matches E voc G d v P1 P2 low Hd H2 Hst key).
    split; (intros [A|[m Hm]]; [left; exact A|right]); apply tab_get in Hm as (x & Hx & _); eexists; exact (tab_some _ _ _ _ Hx).
Qed.

Lemma ref_alike matches conforms (op : operand) : alike (object_meaning matches conforms [(u "$ref", op)]) (self op).
Proof.
  split.
  - intro v. exact (lone_reference matches conforms op v).
  - intros v k. cbn [object_meaning evaluates]. split.
    + intros [H|[m H]]; [|discriminate]. destruct H as [H|[H|[H|[H|[H|[H|[H|[H|H]]]]]]]].
      * destruct H as (? & ? & [=] & _).
      * destruct H as (? & ? & ? & [=] & _).
      * destruct H as (? & [=]).
      * destruct H as (? & ? & [=] & _).
      * destruct H as (? & ? & ? & [-> | ->] & [=] & _).
      * destruct H as (? & [=] & _).
      * destruct H as (? & ? & [=] & _).
      * destruct H as (? & ? & ? & ? & [=] & _).
      * destruct H as (m & [= <-] & H). exact H.
    + intro H. left. do 8 right. eexists. split; [reflexivity|exact H].
Qed.
Definition alike_at (v : pv) (m m' : meaning) : Prop := (valid m v <-> valid m' v) /\ forall key, evaluates m v key <-> evaluates m' v key.
Lemma alike_at_trans v a b c : alike_at v a b -> alike_at v b c -> alike_at v a c.
Proof. intros [A B] [C D]. split; [rewrite A; exact C|]. intro k. rewrite B. apply D. Qed.
Lemma alike_at_sym v a b : alike_at v a b -> alike_at v b a.
Proof. intros [A B]. split; [symmetry; exact A|]. intro k. symmetry. apply B. Qed.

Section Readings.
  Variables (auth : pystr -> option authority) (V : pv) (E : env) (voc : list akw) (G : pv -> Prop) (rk : pv -> nat) (matches conforms : pystr -> pystr -> Prop).
  Hypothesis Gu : guarded auth V G rk.
  Hypothesis HG : forall s, G s -> schema_in auth V E voc G s.
  Lemma in_force s : G s -> (exists b, s = VBool b) \/ (exists d, s = VDict d /\ dget (u "$ref") d = None /\ object_supported E voc G d) \/
    exists t v p o, s = VDict [(u "$ref", VStr t)] /\ local auth t v p /\ inside V p (VDict o) /\ G (VDict o) /\ rk (VDict o) < rk s.
  Proof.
    intro Gs. destruct (HG s Gs) as [W [[B|(d & -> & B & H)]|(t & v & p & o & -> & L & I & Go)]]; [left; exact B|right; left|right; right].
    - exists d. split; [reflexivity|]. split; [exact (B _ (or_introl eq_refl))|split; assumption].
    - exists t, v, p, o. repeat (split; [first [reflexivity|assumption]|]). exact (gd_ref _ _ _ _ Gu _ t v p o (W _ eq_refl) eq_refl L I).
  Qed.

  (** at most one *)
  Lemma one_reading P1 P2 : reading auth V matches conforms G P1 -> reading auth V matches conforms G P2 ->
    forall n v, weight v < n -> forall m s, rk s < m -> G s -> alike_at v (P1 s) (P2 s).
  Proof.
    intros R1 R2. assert (Bo : forall b v, alike_at v (P1 (VBool b)) (P2 (VBool b))).
    { intros b v. destruct (alike_trans _ _ _ (rd_bool _ _ _ _ _ _ R1 b) (alike_sym _ _ (rd_bool _ _ _ _ _ _ R2 b))) as [A B]. split; [apply A|apply B]. }
    induction n as [|n IHn]; intros v W; [lia|]. induction m as [|m IHm]; intros s L Gs; [lia|].
    destruct (in_force s Gs) as [[b ->]|[(d & -> & Nr & Sd)|(t & v' & p & o & -> & Lo & I & Go & Lt)]]; [apply Bo| |].
    - destruct (rd_object _ _ _ _ _ _ R1 d Gs) as (t1 & F1 & A1 & B1). destruct (rd_object _ _ _ _ _ _ R2 d Gs) as (t2 & F2 & A2 & B2).
      apply (plain_operands auth V P1 d t1 Nr) in F1. apply (plain_operands auth V P2 d t2 Nr) in F2. subst t1 t2.
      eapply alike_at_trans; [split; [apply A1|apply B1]|]. eapply alike_at_trans; [|apply alike_at_sym; split; [apply A2|apply B2]].
      apply (local_alike matches conforms E voc G d v P1 P2 (fun s => rk s < rk (VDict d)) Sd).
      + intros b y. exact (proj1 (Bo b y)).
      + intros s y Gs' Wy. apply (IHn y ltac:(lia) (S (rk s)) s); [lia|exact Gs'].
      + intros s Gs' Ls. apply IHm; [lia|exact Gs'].
      + intros k x s Hx St Gs'. exact (gd_stays _ _ _ _ Gu d k x s Gs Hx St Gs').
    - assert (K : forall P, reading auth V matches conforms G P -> alike_at v (P (VDict [(u "$ref", VStr t)])) (P (VDict o))).
      { intros P R. destruct (rd_object _ _ _ _ _ _ R _ Gs) as (tb & F & A & B). inversion F as [|? [k op] ? l (E1 & _ & _ & _ & _ & E6) F']; subst. inversion F'; subst. cbn [fst snd] in *. subst k.
        rewrite <- (E6 t v' p o eq_refl eq_refl Lo I). destruct (ref_alike matches conforms op) as [C D]. split; [rewrite (A v); apply C|]. intro k. rewrite (B v k). apply D. }
      eapply alike_at_trans; [exact (K P1 R1)|]. eapply alike_at_trans; [|apply alike_at_sym; exact (K P2 R2)]. apply IHm; [lia|exact Go].
  Qed.
  Theorem C118_one P1 P2 s : reading auth V matches conforms G P1 -> reading auth V matches conforms G P2 -> G s -> alike (P1 s) (P2 s).
  Proof.
    intros R1 R2 Gs. assert (K : forall v, alike_at v (P1 s) (P2 s)) by (intro v; exact (one_reading P1 P2 R1 R2 _ v (Nat.lt_succ_diag_r _) _ s (Nat.lt_succ_diag_r _) Gs)).
    split; intro v; apply (K v).
  Qed.

  (** at least one: the limit of what is found in so many steps *)
  Fixpoint found (n : nat) (s : pv) : meaning :=
    match n with
    | O => Meaning (fun _ => False) (fun _ _ => False)
    | S n => match s with
             | VBool b => Meaning (fun _ => b = true) (fun _ _ => False)
             | VDict d => match dget (u "$ref") d with
                          | Some (VStr t) => match refers_to auth V t with Some o => found n (VDict o) | None => Meaning (fun _ => False) (fun _ _ => False) end
                          | Some _ => Meaning (fun _ => False) (fun _ _ => False)
                          | None => object_meaning matches conforms (tab (found n) d)
                          end
             | _ => Meaning (fun _ => False) (fun _ _ => False)
             end
    end.
  Definition top : nat := list_max (map (fun y : item => rk (snd y)) (all_parts false V)).
  Definition rank (s : pv) : nat := match s with VDict _ => rk s | _ => O end.
  Definition steps_for (s v : pv) : nat := weight v * S top + rank s.
  Lemma rank_top s : G s -> rank s <= top.
  Proof.
    intro Gs. destruct s as [| | | | | | |d]; cbn [rank]; try lia. destruct (within_some V _ (proj1 (HG _ Gs) d eq_refl)) as [f Pd]. apply part_listed in Pd.
    pose proof (proj1 (list_max_le (map (fun y : item => rk (snd y)) (all_parts false V)) top) (le_n _)) as F. rewrite Forall_forall in F. apply F. apply (in_map (fun y : item => rk (snd y))) in Pd. exact Pd.
  Qed.
  Lemma steps_value s s' v y : G s' -> weight y < weight v -> steps_for s' y < steps_for s v.
  Proof. intros Gs L. pose proof (rank_top s' Gs). unfold steps_for. assert (S (weight y) * S top <= weight v * S top) by (apply Nat.mul_le_mono_r; lia). cbn [Nat.mul] in *. lia. Qed.
  Lemma steps_schema d s' v : rk s' < rk (VDict d) -> steps_for s' v < steps_for (VDict d) v.
  Proof. intros L. unfold steps_for. cbn [rank]. assert (rank s' <= rk s') by (destruct s'; cbn [rank]; lia). lia. Qed.
  Lemma found_stable n : forall m s v, G s -> steps_for s v < n -> steps_for s v < m -> alike_at v (found n s) (found m s).
  Proof.
    induction n as [|n IH]; intros m s v Gs Ln Lm; [lia|]. destruct m as [|m]; [lia|].
    destruct (in_force s Gs) as [[b ->]|[(d & -> & Nr & Sd)|(t & v' & p & o & -> & Lo & I & Go & Lt)]]; cbn [found].
    - split; reflexivity.
    - rewrite Nr. apply (local_alike matches conforms E voc G d v (found n) (found m) (fun s => rk s < rk (VDict d)) Sd).
      + intros b y. destruct n, m; cbn [found valid]; try reflexivity; exfalso; unfold steps_for in *; assert (1 <= weight v) by (destruct v; cbn [weight]; lia); nia.
      + intros s y Gs' Wy. pose proof (steps_value (VDict d) s v y Gs' Wy). apply IH; [exact Gs'|lia|lia].
      + intros s Gs' Ls. pose proof (steps_schema d s v Ls). apply IH; [exact Gs'|lia|lia].
      + intros k x s Hx St Gs'. exact (gd_stays _ _ _ _ Gu d k x s Gs Hx St Gs').
    - cbn [dget]. rewrite str_eqb_refl, (refers auth V t v' p o Lo I). pose proof (steps_schema _ _ v Lt). apply IH; [exact Go|lia|lia].
  Qed.
  Definition limit (s : pv) : meaning := Meaning (fun v => valid (found (S (steps_for s v)) s) v) (fun v key => evaluates (found (S (steps_for s v)) s) v key).
  Lemma limit_found n s v : G s -> steps_for s v < n -> alike_at v (limit s) (found n s).
  Proof. intros Gs L. exact (found_stable _ n s v Gs (Nat.lt_succ_diag_r _) L). Qed.
  Lemma operands_self P d : dget (u "$ref") d = None -> Forall2 (operand_of auth V P) d (tab P d).
  Proof.
    intro Nr. apply dget_None in Nr. induction d as [|[k x] d IH]; [constructor|]. cbn [tab map fst snd]. constructor; [|apply IH; intro I; apply Nr; right; exact I].
    split; [reflexivity|]. split; [reflexivity|]. split; [reflexivity|]. split; [reflexivity|]. split; [reflexivity|]. cbn [fst]. intros t v p o -> _ _ _. exfalso. apply Nr. left. reflexivity.
  Qed.
  Theorem C118_exists : exists P, reading auth V matches conforms G P.
  Proof.
    exists limit. constructor.
    - intro b. split; intros v; [reflexivity|]. intro k. reflexivity.
    - intros d Gd'. destruct (in_force _ Gd') as [[b [=]]|[(d' & [= <-] & Nr & Sd)|(t & v' & p & o & [= ->] & Lo & I & Go & Lt)]].
      + exists (tab limit d). split; [exact (operands_self limit d Nr)|].
        assert (K : forall v, alike_at v (limit (VDict d)) (object_meaning matches conforms (tab limit d))).
        { intro v. eapply alike_at_trans; [exact (limit_found _ _ v Gd' (Nat.lt_succ_diag_r _))|]. cbn [found]. rewrite Nr.
          apply (local_alike matches conforms E voc G d v _ limit (fun s => rk s < rk (VDict d)) Sd).
          - intros b y. assert (L : 0 < steps_for (VDict d) v) by (unfold steps_for; assert (1 <= weight v) by (destruct v; cbn [weight]; lia); nia). destruct (steps_for (VDict d) v); [lia|]. reflexivity.
          - intros s y Gs Wy. apply alike_at_sym. apply limit_found; [exact Gs|]. exact (steps_value (VDict d) s v y Gs Wy).
          - intros s Gs Ls. apply alike_at_sym. apply limit_found; [exact Gs|]. exact (steps_schema d s v Ls).
          - intros k x s Hx St Gs. exact (gd_stays _ _ _ _ Gu d k x s Gd' Hx St Gs). }
        split; intro v; apply (K v).
      + set (op := Operand (VStr t) (limit (VDict o)) [] []). exists [(u "$ref", op)]. split.
        { constructor; [|constructor]. split; [reflexivity|]. split; [reflexivity|]. split; [reflexivity|]. split; [reflexivity|]. split; [intro N; exfalso; apply N; reflexivity|].
          cbn [fst snd]. intros t' v p' o' _ [= <-] L' I'. rewrite (local_one _ _ _ _ _ _ L' Lo) in I'. pose proof (inside_one _ _ _ _ I I') as [= <-]. reflexivity. }
        assert (K : forall v, alike_at v (limit (VDict [(u "$ref", VStr t)])) (limit (VDict o))).
        { intro v. eapply alike_at_trans; [exact (limit_found _ _ v Gd' (Nat.lt_succ_diag_r _))|]. cbn [found dget]. rewrite str_eqb_refl, (refers auth V t v' p o Lo I).
          apply alike_at_sym, limit_found; [exact Go|]. exact (steps_schema _ _ v Lt). }
        apply (alike_trans _ (limit (VDict o))); [split; intro v; apply (K v)|]. apply alike_sym. exact (ref_alike matches conforms op).
  Qed.
End Readings.

(** ** A case: trees *)
Local Open Scope string_scope.
Definition tree_kids : pv := jdict [("type", VStr (u "array")); ("items", ref_to "#")].
Definition tree_doc : pv := jdict [("type", VStr (u "object")); ("properties", jdict [("value", is_integer); ("children", tree_kids)]); ("required", VList [VStr (u "value")])].
Definition tree_schemas (s : pv) : Prop := In s [is_integer; ref_to "#"; tree_kids; tree_doc].
(** a reference is above what it refers to *)
Definition ref_above (s : pv) : nat := match s with VDict d => if dmem (u "$ref") d then 1 else 0 | _ => 0 end.
Ltac among G := unfold G; cbn [In]; repeat (first [left; reflexivity|right]).
Lemma to_root V t v p o o' : local toy t v p -> t = u "#" -> V = VDict o' -> inside V p (VDict o) -> o = o'.
Proof.
  intros L -> -> H. assert (L' : exists v, local toy (u "#") v []) by local_ref. destruct L' as [v' L']. rewrite (local_one _ _ _ _ _ _ L L') in H. inversion H. reflexivity.
Qed.
Lemma tree_guarded : guarded toy tree_doc tree_schemas ref_above.
Proof.
  constructor.
  - intros d x W Hx. destruct (within_some _ _ W) as [f P]. apply part_listed in P. vm_compute in P. repeat (destruct P as [P|P]; [try discriminate P; injection P as _ <-; vm_compute in Hx; try discriminate Hx; injection Hx as <-|]); [|destruct P].
    assert (L : exists v, local toy (u "#") v []) by local_ref. destruct L as [v L]. eexists _, v, [], _. split; [reflexivity|]. split; [exact L|apply in_here].
  - intros d t v p o W Hx L I. destruct (within_some _ _ W) as [f P]. apply part_listed in P. vm_compute in P. repeat (destruct P as [P|P]; [try discriminate P; injection P as _ <-; vm_compute in Hx; try discriminate Hx; injection Hx as <-|]); [|destruct P].
    rewrite (to_root _ _ _ _ _ _ L eq_refl eq_refl I). apply Nat.lt_0_1.
  - intros d k x s Gd Hx St _. exfalso. unfold tree_schemas in Gd. cbn [In] in Gd. repeat (destruct Gd as [Gd|Gd]; [injection Gd as <-; destruct k; vm_compute in Hx; try discriminate Hx; exact St|]). destruct Gd.
Qed.
Lemma tree_within s : tree_schemas s -> within tree_doc s.
Proof.
  intro H. assert (K : exists f, In (f, s) (all_parts false tree_doc)).
  { unfold tree_schemas in H. cbn [In] in H. repeat (destruct H as [<-|H]; [exists false; vm_compute; repeat (first [left; reflexivity|right])|]). destruct H. }
  destruct K as [f K]. apply (listed_part tree_doc _ false _ (pt_root _)) in K. exact (part_within _ _ K).
Qed.
Lemma tree_schema s : tree_schemas s -> schema_in toy tree_doc ex_env std_kws tree_schemas s.
Proof.
  intro H. split; [intros d ->; exact (tree_within _ H)|].
  assert (B : forall d : list (pystr * pv), forallb (fun k => negb (dmem k d)) beyond = true -> forall k, In k beyond -> dget k d = None).
  { intros d K k Ik. rewrite forallb_forall in K. specialize (K k Ik). unfold dmem in K. destruct (dget k d); [discriminate|reflexivity]. }
  unfold tree_schemas in H. cbn [In] in H. destruct H as [<-|[<-|[<-|[<-|[]]]]].
  2: { right. assert (L : exists v, local toy (u "#") v []) by local_ref. destruct L as [v L]. eexists _, v, [], _. split; [reflexivity|]. split; [exact L|]. split; [apply in_here|among tree_schemas]. }
  all: left; right; eexists; (split; [reflexivity|]); (split; [apply B; reflexivity|]); intros k x Hx; destruct k; vm_compute in Hx; try discriminate Hx; injection Hx as <-; (split; [kw_in|]); cbn [usable].
  all: try case_type.
  - split; [case_type|among tree_schemas].
  - eexists. split; [reflexivity|]. intros key s Is. repeat (destruct Is as [[= <- <-]|Is]; [among tree_schemas|]). destruct Is.
  - split; [case_type|]. eexists. split; [reflexivity|]. intros y [<-|[]]. eexists. reflexivity.
Qed.
Lemma tree_plain : plain_refs tree_doc.
Proof.
  constructor.
  - intros f d P N. apply part_listed in P. vm_compute in P. repeat (destruct P as [P|P]; [try discriminate P; injection P as <- <-; first [exfalso; apply N; reflexivity|split; [reflexivity|eexists; reflexivity]]|]). destruct P.
  - intros d P. apply part_listed in P. vm_compute in P. repeat (destruct P as [P|P]; [try discriminate P; injection P as <-; reflexivity|]). destruct P.
  - intros d k tb P Ik G. apply part_listed in P. vm_compute in P. repeat (destruct P as [P|P]; [try discriminate P; injection P as <-; repeat (destruct Ik as [<-|Ik]; [vm_compute in G; try discriminate G; injection G as <-; reflexivity|]); destruct Ik|]). destruct P.
  - intros d x e P G W. exfalso. apply part_listed in P. vm_compute in P. repeat (destruct P as [P|P]; [try discriminate P; injection P as <-; discriminate G|]). destruct P.
  - intros d [= <-]. reflexivity.
Qed.
Definition tree (n : pv) (l : list pv) : pv := jdict [("value", n); ("children", VList l)].
Definition tree_good : pv := tree (VInt 1) [tree (VInt 2) []; tree (VInt 3) [tree (VInt 4) []]; jdict [("value", VInt 5)]].
Definition tree_bad : pv := tree (VInt 1) [tree (VInt 2) []; tree (VInt 3) [tree (VStr (u "4")) []]].
Example C118_some : (forall s, tree_schemas s -> schema_in toy tree_doc ex_env std_kws tree_schemas s) /\ (exists rest, std_kws = KwType :: rest) /\
  fit_document toy tree_doc /\ plain_refs tree_doc /\ neat tree_doc /\ guarded toy tree_doc tree_schemas ref_above /\ opened (World [] [] []) tree_doc 0 (doc_world tree_doc) /\ tree_schemas tree_doc /\
  exists P, reading toy tree_doc (re_matches ex_env) (fmt_conforms ex_env) tree_schemas P /\
  (sharp_inside tree_good /\ small_quotients tree_schemas tree_good /\ plain_arrays tree_schemas tree_good /\ plain_names tree_good /\ doc_run tree_doc tree_good = Ok tt /\ valid (P tree_doc) tree_good) /\
  (sharp_inside tree_bad /\ small_quotients tree_schemas tree_bad /\ plain_arrays tree_schemas tree_bad /\ plain_names tree_bad /\ (exists e, doc_run tree_doc tree_bad = Raise (EValid e)) /\ ~ valid (P tree_doc) tree_bad).
Proof.
  assert (Ft : fit_document toy tree_doc) by (apply fit_documentb_ok; vm_compute; reflexivity).
  assert (Ne : neat tree_doc) by (apply neatb_ok; reflexivity).
  assert (Gi : tree_schemas tree_doc) by (among tree_schemas).
  assert (O : opened (World [] [] []) tree_doc 0 (doc_world tree_doc)) by reflexivity.
  assert (S1 : sharp_inside tree_good) by (apply case_sharp; reflexivity). assert (S2 : sharp_inside tree_bad) by (apply case_sharp; reflexivity).
  assert (Q : forall v, small_quotients tree_schemas v).
  { intros v p y q d x r _ _ Gd Hx. exfalso. unfold tree_schemas in Gd. cbn [In] in Gd. repeat (destruct Gd as [Gd|Gd]; [try discriminate Gd; injection Gd as <-; vm_compute in Hx; discriminate Hx|]). destruct Gd. }
  assert (T : forall v, plain_arrays tree_schemas v).
  { intros v p l d _ Gd Hx. exfalso. unfold tree_schemas in Gd. cbn [In] in Gd. repeat (destruct Gd as [Gd|Gd]; [try discriminate Gd; injection Gd as <-; vm_compute in Hx; discriminate Hx|]). destruct Gd. }
  assert (P1 : plain_names tree_good) by (apply case_plain; reflexivity). assert (P2 : plain_names tree_bad) by (apply case_plain; reflexivity).
  destruct (C118_exists toy tree_doc ex_env std_kws tree_schemas ref_above (re_matches ex_env) (fmt_conforms ex_env) tree_guarded tree_schema) as [P R].
  assert (Vo : exists rest, std_kws = KwType :: rest) by (eexists; reflexivity).
  split; [exact tree_schema|]. split; [exact Vo|]. split; [exact Ft|]. split; [exact tree_plain|]. split; [exact Ne|]. split; [exact tree_guarded|]. split; [exact O|]. split; [exact Gi|].
  exists P. split; [exact R|]. split; (split; [assumption|]); (split; [apply Q|]); (split; [apply T|]); (split; [assumption|]).
  - split; [vm_compute; reflexivity|].
    destruct (recursive_agreement toy tree_doc ex_env std_kws tree_schemas ref_above P tree_plain (proj1 (proj2 Ft)) tree_guarded tree_schema R Vo (fun _ => []) tree_doc tree_good [] Gi (proj1 (proj2 Ft)) (conj S1 (conj (Q _) (T _))) P1 ltac:(constructor)) as (A & _).
    apply A. exists 30. vm_compute. reflexivity.
  - split; [eexists; vm_compute; reflexivity|].
    destruct (recursive_agreement toy tree_doc ex_env std_kws tree_schemas ref_above P tree_plain (proj1 (proj2 Ft)) tree_guarded tree_schema R Vo (fun _ => []) tree_doc tree_bad [] Gi (proj1 (proj2 Ft)) (conj S2 (conj (Q _) (T _))) P2 ltac:(constructor)) as (_ & A & _).
    apply A. exists 30. eexists. vm_compute. reflexivity.
Qed.

(** C118 fails on other documents: in an array a reference is no reference, so a
    chain of records that the standard rejects is accepted. *)
Definition chain : pv := jdict [("type", VStr (u "object")); ("properties", jdict [("next", ref_to "#/d")])].
Definition chain_doc : pv := jdict [("allOf", VList [ref_to "#/d"]); ("d", chain)].
Definition chain_schemas (s : pv) : Prop := In s [ref_to "#/d"; chain; chain_doc].
Definition chain_rank (s : pv) : nat := match s with VDict d => if dmem (u "allOf") d then 2 else if dmem (u "$ref") d then 1 else 0 | _ => 0 end.
Lemma to_chain t v p o : local toy t v p -> t = u "#/d" -> inside chain_doc p (VDict o) -> VDict o = chain.
Proof.
  intros L -> H. assert (L' : exists v, local toy (u "#/d") v [u "d"]) by local_ref. destruct L' as [v' L']. rewrite (local_one _ _ _ _ _ _ L L') in H.
  apply inside_walk in H. vm_compute in H. injection H as <-. reflexivity.
Qed.
Lemma chain_here : exists v o, local toy (u "#/d") v [u "d"] /\ inside chain_doc [u "d"] (VDict o) /\ VDict o = chain.
Proof. assert (L : exists v, local toy (u "#/d") v [u "d"]) by local_ref. destruct L as [v L]. eexists v, _. split; [exact L|]. split; [|reflexivity]. eapply in_member; [reflexivity|apply in_here]. Qed.
Lemma chain_guarded : guarded toy chain_doc chain_schemas chain_rank.
Proof.
  constructor.
  - intros d x W Hx. assert (Ex : x = VStr (u "#/d")). { destruct (within_some _ _ W) as [f P]. apply part_listed in P. vm_compute in P. repeat (destruct P as [P|P]; [try discriminate P; injection P as _ <-; vm_compute in Hx; try discriminate Hx; injection Hx as <-; reflexivity|]). destruct P. }
    destruct chain_here as (v & o & L & I & _). eauto 10.
  - intros d t v p o W Hx L I. assert (Et : t = u "#/d" /\ chain_rank (VDict d) = 1). { destruct (within_some _ _ W) as [f P]. apply part_listed in P. vm_compute in P. repeat (destruct P as [P|P]; [try discriminate P; injection P as _ <-; vm_compute in Hx; try discriminate Hx; injection Hx as <-; split; reflexivity|]). destruct P. }
    destruct Et as [Et ->]. rewrite (to_chain t v p o L Et I). apply Nat.lt_0_1.
  - intros d k x s Gd Hx St _. unfold chain_schemas in Gd. cbn [In] in Gd. repeat (destruct Gd as [Gd|Gd]; [injection Gd as <-; destruct k; vm_compute in Hx; try discriminate Hx; injection Hx as <-; try destruct St|]); [|destruct Gd].
    destruct H as [[= <-] [<-|[]]]. vm_compute. lia.
Qed.
Lemma chain_schema s : chain_schemas s -> schema_in toy chain_doc ex_env std_kws chain_schemas s.
Proof.
  intro H. split.
  { intros d ->. assert (K : exists f, In (f, VDict d) (all_parts false chain_doc)).
    { unfold chain_schemas in H. cbn [In] in H. repeat (destruct H as [H|H]; [injection H as <-; first [exists false; vm_compute; repeat (first [left; reflexivity|right]); fail|exists true; vm_compute; repeat (first [left; reflexivity|right]); fail]|]). destruct H. }
    destruct K as [f K]. apply (listed_part chain_doc _ false _ (pt_root _)) in K. exact (part_within _ _ K). }
  assert (B : forall d : list (pystr * pv), forallb (fun k => negb (dmem k d)) beyond = true -> forall k, In k beyond -> dget k d = None).
  { intros d K k Ik. rewrite forallb_forall in K. specialize (K k Ik). unfold dmem in K. destruct (dget k d); [discriminate|reflexivity]. }
  unfold chain_schemas in H. cbn [In] in H. destruct H as [<-|[<-|[<-|[]]]].
  1: { right. destruct chain_here as (v & o & L & I & Eo). exists (u "#/d"), v, [u "d"], o. split; [reflexivity|]. split; [exact L|]. split; [exact I|]. rewrite Eo. among chain_schemas. }
  all: left; right; eexists; (split; [reflexivity|]); (split; [apply B; reflexivity|]); intros k x Hx; destruct k; vm_compute in Hx; try discriminate Hx; injection Hx as <-; (split; [kw_in|]); cbn [usable].
  all: try case_type.
  - eexists. split; [reflexivity|]. intros key s Is. repeat (destruct Is as [[= <- <-]|Is]; [among chain_schemas|]). destruct Is.
  - eexists. split; [reflexivity|]. intros s Is. repeat (destruct Is as [<-|Is]; [among chain_schemas|]). destruct Is.
Qed.
Definition chain_bad : pv := jdict [("next", jdict [("next", VNone)])].
Theorem C118_refuted : exists V (G : pv -> Prop) rk P v,
  (forall s, G s -> schema_in toy V ex_env std_kws G s) /\ guarded toy V G rk /\ G V /\ reading toy V (re_matches ex_env) (fmt_conforms ex_env) G P /\
  doc_run V v = Ok tt /\ ~ valid (P V) v.
Proof.
  destruct (C118_exists toy chain_doc ex_env std_kws chain_schemas chain_rank (re_matches ex_env) (fmt_conforms ex_env) chain_guarded chain_schema) as [P R].
  exists chain_doc, chain_schemas, chain_rank, P, chain_bad. split; [exact chain_schema|]. split; [exact chain_guarded|]. split; [among chain_schemas|]. split; [exact R|]. split; [vm_compute; reflexivity|].
  assert (Gc : chain_schemas chain) by (among chain_schemas). assert (Gv : chain_schemas chain_doc) by (among chain_schemas).
  assert (Rf : forall v, valid (P (ref_to "#/d")) v -> valid (P chain) v).
  { intros v H. destruct chain_here as (w & o & L & I & Eo). rewrite <- Eo.
    exact (proj1 (ref_reading _ _ _ _ _ R (u "#/d") w [u "d"] o ltac:(among chain_schemas) L I v) H). }
  assert (Nx : forall v, valid (P chain) v -> (exists d, v = VDict d) /\ forall d y, v = VDict d -> In (u "next", y) d -> valid (P chain) y).
  { intros v H. pose proof (proj1 (object_reading _ _ _ _ _ R _ Gc eq_refl v) H) as K. split.
    - destruct (st_type _ _ _ _ K _ eq_refl) as [(t & [= <-] & K')|(l & t & [=] & _)]. destruct v; try discriminate K'; [| | |eauto]; destruct K' as [K'|[K' _]]; discriminate K'.
    - intros d y -> Iy. apply Rf. exact (st_properties _ _ _ _ K _ eq_refl _ _ _ _ eq_refl Iy (or_introl eq_refl)). }
  intro H. pose proof (proj1 (object_reading _ _ _ _ _ R _ Gv eq_refl chain_bad) H) as K.
  pose proof (Rf _ (st_all _ _ _ _ K _ eq_refl _ (or_introl eq_refl))) as K1.
  pose proof (proj2 (Nx _ K1) _ _ eq_refl (or_introl eq_refl)) as K2. pose proof (proj2 (Nx _ K2) _ _ eq_refl (or_introl eq_refl)) as K3. destruct (proj1 (Nx _ K3)) as [d [=]].
Qed.
