(** C69-C72: validating with a loaded document. *)
From Verif Require Import PyBase PyBaseFacts PyVal OrderFacts Regex Numbers Uri Pointer PropsPointer Store Errors Validators Keywords Heap HeapFacts PropsWrap PropsPlaces PropsUriEx Doc DocMono DocFacts PropsQuery DocLoad PropsLoad DocDocument PropsAnchor PropsRef Parametric Validate ExBase.
Local Open Scope nat_scope.
Local Notation length := List.length (only parsing).

(** ** A document as a schema, with its local references *)
(** members of an object, inside or outside arrays *)
Definition kids (f : bool) (d : list (pystr * pv)) : list (pystr * item) := map (fun kx => (fst kx, (f, snd kx))) d.
(** [{**own, **target}] *)
Definition updated {A} (own target : list (pystr * A)) : list (pystr * A) := fold_left (fun acc kx => dset (fst kx) (snd kx) acc) target own.
Definition beside {A} (d : list (pystr * A)) : list (pystr * A) := filter (fun kx => negb (str_eqb (fst kx) (u "$ref"))) d.

(** a value of the document: the root, its members, the elements of its arrays *)
Inductive part (V : pv) : item -> Prop :=
| pt_root : part V (false, V)
| pt_member f d k x : part V (f, VDict d) -> In (k, x) d -> part V (f, x)
| pt_elem f l x : part V (f, VList l) -> In x l -> part V (true, x).

(** all of them *)
Fixpoint all_parts (f : bool) (v : pv) : list item :=
  (f, v) :: match v with VDict d => flat_map (fun kx => all_parts f (snd kx)) d | VList l => flat_map (all_parts true) l | _ => [] end.
Lemma all_here f v : In (f, v) (all_parts f v).
Proof. destruct v; left; reflexivity. Qed.
Lemma all_member v : forall g f d k x, In (f, VDict d) (all_parts g v) -> In (k, x) d -> In (f, x) (all_parts g v).
Proof.
  induction v as [v Hl Hd|l IH|e IH] using pv_ind_deep; intros g f d k x H I.
  - destruct v; try (exfalso; eapply Hl; reflexivity); try (exfalso; eapply Hd; reflexivity); cbn in H; destruct H as [H|[]]; discriminate.
  - cbn [all_parts] in *. destruct H as [H|H]; [discriminate|]. right. rewrite Forall_forall in IH. apply in_flat_map in H as (y & Iy & H). apply in_flat_map. exists y. split; [exact Iy|]. eapply IH; eassumption.
  - cbn [all_parts] in *. right. rewrite Forall_forall in IH. destruct H as [[= -> ->]|H].
    + apply in_flat_map. exists (k, x). split; [exact I|apply all_here].
    + apply in_flat_map in H as (y & Iy & H). apply in_flat_map. exists y. split; [exact Iy|]. eapply IH; eassumption.
Qed.
Lemma all_elem v : forall g f l x, In (f, VList l) (all_parts g v) -> In x l -> In (true, x) (all_parts g v).
Proof.
  induction v as [v Hl Hd|m IH|e IH] using pv_ind_deep; intros g f l x H I.
  - destruct v; try (exfalso; eapply Hl; reflexivity); try (exfalso; eapply Hd; reflexivity); cbn in H; destruct H as [H|[]]; discriminate.
  - cbn [all_parts] in *. right. rewrite Forall_forall in IH. destruct H as [[= -> ->]|H].
    + apply in_flat_map. exists x. split; [exact I|apply all_here].
    + apply in_flat_map in H as (y & Iy & H). apply in_flat_map. exists y. split; [exact Iy|]. eapply IH; eassumption.
  - cbn [all_parts] in *. destruct H as [H|H]; [discriminate|]. right. rewrite Forall_forall in IH. apply in_flat_map in H as (y & Iy & H). apply in_flat_map. exists y. split; [exact Iy|]. eapply IH; eassumption.
Qed.
Lemma part_listed V y : part V y -> In y (all_parts false V).
Proof. induction 1 as [|f d k x _ IH I|f l x _ IH I]; [apply all_here|eapply all_member; eassumption|eapply all_elem; eassumption]. Qed.
Lemma listed_part V v : forall f y, part V (f, v) -> In y (all_parts f v) -> part V y.
Proof.
  induction v as [v Hl Hd|l IH|d IH] using pv_ind_deep; intros f y P H.
  - destruct v; try (exfalso; eapply Hl; reflexivity); try (exfalso; eapply Hd; reflexivity); cbn in H; destruct H as [<-|[]]; exact P.
  - cbn [all_parts] in H. destruct H as [<-|H]; [exact P|]. rewrite Forall_forall in IH. apply in_flat_map in H as (x & Ix & H). eapply IH; [exact Ix| |exact H]. eapply pt_elem; eassumption.
  - cbn [all_parts] in H. destruct H as [<-|H]; [exact P|]. rewrite Forall_forall in IH. apply in_flat_map in H as ([k x] & Ix & H). eapply IH; [exact Ix| |exact H]. eapply pt_member; eassumption.
Qed.

Section Sees.
  Variables (auth : pystr -> option authority) (dig : N -> option Z) (V : pv).
  (** what a value of the document is as a schema; [finds] (PropsRef.v) is where
      a pointer leads *)
  Inductive sees : item -> nview item -> Prop :=
  | se_null f : sees (f, VNone) (NView NNull false)
  | se_bool f b : sees (f, VBool b) (NView (NBool b) false)
  | se_int f z : sees (f, VInt z) (NView (NNum (Dec z 0)) false)
  | se_float f x : sees (f, VFloat x) (NView (NNum (frepr x)) false)
  | se_dec f d : sees (f, VDec d) (NView (NNum d) false)
  | se_str f s : sees (f, VStr s) (NView (NStr s) false)
  | se_list f l : sees (f, VList l) (NView (NArr (map (pair true) l)) false)
  (** inside an array nothing is followed *)
  | se_raw d : sees (true, VDict d) (NView (NObj (kids true d)) false)
  | se_obj d : dget (u "$ref") d = None -> sees (false, VDict d) (NView (NObj (kids false (ddel (u "$anchor") d))) false)
  (** a reference to an object: its members over those beside the reference *)
  | se_ref d t v p y tgt b : dget (u "$ref") d = Some (VStr t) -> local auth t v p -> finds auth dig V p y -> sees y (NView (NObj tgt) b) ->
      sees (false, VDict d) (NView (NObj (updated (kids false (beside d)) tgt)) true)
  (** a reference to something else *)
  | se_ref_val d t v p y z b : dget (u "$ref") d = Some (VStr t) -> local auth t v p -> finds auth dig V p y -> sees y (NView z b) -> (forall o, z <> NObj o) ->
      sees (false, VDict d) (NView z true).
  (** every reference leads to something *)
  Definition resolves : Prop := forall y, part V y -> exists nv, sees y nv.

  Lemma inside_part q x : inside V q x -> part V (false, x).
  Proof.
    intro H. assert (K : forall v, inside v q x -> part V (false, v) -> part V (false, x)); [|exact (K V H (pt_root V))].
    clear H. intros v H. induction H as [v|d k z p y G _ IH]; intro P; [exact P|]. apply IH. eapply pt_member; [exact P|apply dget_In, G].
  Qed.
  Lemma part_elem f l i y : part V (f, VList l) -> nth_error l i = Some y -> part V (true, y).
  Proof. intros P G. eapply pt_elem; [exact P|eapply nth_error_In, G]. Qed.
  Lemma In_ddel {A} k (d : list (pystr * A)) z : In z (ddel k d) -> In z d.
  Proof. induction d as [|[k1 y] d IH]; intro H; [exact H|]. cbn [ddel] in H. destruct (str_eqb k k1); [right; auto|]. destruct H as [H|H]; [left; exact H|right; auto]. Qed.
  Lemma parts : (forall y sh, reads auth dig V y sh -> part V y -> match sh with SMembers look => forall k z, look k = Some z -> part V z | SValue z => part V z end) /\
    (forall p y, finds auth dig V p y -> part V y) /\ (forall y p z, steps auth dig V y p z -> part V y -> part V z).
  Proof.
    apply meaning_ind.
    - intros d P k z G. unfold under in G. destruct (dget k d) as [x|] eqn:E; [|discriminate]. injection G as <-. eapply pt_member; [exact P|apply dget_In, E].
    - intros d N P k z G. unfold under in G. destruct (dget k (ddel _ d)) as [x|] eqn:E; [|discriminate]. injection G as <-. eapply pt_member; [exact P|]. eapply In_ddel, dget_In, E.
    - intros f x _ P. exact P.
    - intros d t v p y look G L _ Py _ IH P k z Hz. destruct (look k) as [z'|] eqn:E; [injection Hz as <-; exact (IH Py k _ E)|]. destruct (str_eqb k _); [discriminate|]. unfold under in Hz. destruct (dget k d) as [x|] eqn:Ed; [|discriminate]. injection Hz as <-.
      eapply pt_member; [exact P|apply dget_In, Ed].
    - intros d t v p y z G L _ Py _ IH P. exact (IH Py).
    - intros name q d _ I _. eapply inside_part, I.
    - intros _. apply pt_root.
    - intros p y _ _ _ IH. apply IH, pt_root.
    - intros x P. exact P.
    - intros x look k y p z _ IHr G _ IHs P. apply IHs. exact (IHr P k y G).
    - intros f l k i y p z _ G _ IHs P. apply IHs. eapply part_elem; eassumption.
  Qed.
End Sees.

Definition ntype {A} (v : nval A) : jtype :=
  match v with NNull => JNull | NBool _ => JBool | NNum _ => JNum | NStr _ => JStr | NArr _ => JArr | NObj _ => JObj end.

Lemma update_nil {A} (l acc : list (pystr * A)) : NoDup (dkeys (acc ++ l)) -> updated acc l = acc ++ l.
Proof.
  unfold updated, dkeys. revert acc. induction l as [|[k x] l IH]; intros acc N; [symmetry; apply app_nil_r|]. cbn [fold_left fst snd].
  assert (E : dset k x acc = acc ++ [(k, x)]).
  { assert (Nk : ~ In k (map fst acc)). { rewrite map_app in N. apply NoDup_remove_2 in N. intro C. apply N, in_or_app. left. exact C. }
    clear -Nk. induction acc as [|[k1 y] acc IH]; [reflexivity|]. cbn [dset app map fst In] in *. destruct (str_eqb_spec k k1) as [->|]; [destruct Nk; left; reflexivity|]. rewrite IH by tauto. reflexivity. }
  rewrite E, IH; rewrite <- app_assoc; [reflexivity|exact N].
Qed.
Lemma forall2_filter {A B} (R : A -> B -> Prop) (f : A -> bool) (g : B -> bool) l m : (forall a b, R a b -> f a = g b) -> Forall2 R l m -> Forall2 R (filter f l) (filter g m).
Proof. intros H. induction 1 as [|a b l m Hab _ IH]; [constructor|]. cbn [filter]. rewrite (H _ _ Hab). destruct (g b); [constructor; assumption|exact IH]. Qed.
Lemma updated_rel {A B} (R : A -> B -> Prop) o o' t t' : Forall2 (member R) o o' -> Forall2 (member R) t t' -> Forall2 (member R) (updated o t) (updated o' t').
Proof.
  intros Ho Ht. revert o o' Ho. unfold updated. induction Ht as [|[k a] [k' b] t t' [Ek H] Ht IH]; intros o o' Ho; [exact Ho|]. cbn [fold_left fst snd] in *. subst k'. apply IH. apply member_set; assumption.
Qed.

Section Seeing.
  Variables (auth : pystr -> option authority) (dig : N -> option Z) (strx : heap -> addr -> pystr) (fetch : uri -> res pv).
  Notation exec := (exec auth dig strx fetch).
  Notation Runs := (Runs auth dig strx fetch).
  Notation ev := (ev auth dig strx fetch).
  Notation see := (see auth dig strx fetch).
  Section World.
  Variables (w : world) (s : nat) (V : pv) (x : schema).
  Notation stands := (stands auth w s).
  Hypothesis Hx : nth_error (w_schemas w) s = Some x.
  Hypothesis Rx : s_ready x = true.
  Hypothesis Lx : loaded auth (w_heap w) s (s_value x) V.
  Hypothesis Dx : distinct V.
  Hypothesis A1 : forall name b, dget name (s_anchors x) = Some b -> exists q d, declares V q name /\ inside V q (VDict d) /\ loaded auth (w_heap w) s b (VDict d).
  Hypothesis A2 : forall name q, declares V q name -> exists b, dget name (s_anchors x) = Some b.

  Definition is_part (a : addr) (y : item) : Prop := stands a y /\ part V y.
  (** with calls this deep [node_view] gives this, and [type] and [items()] agree
      with it *)
  Definition viewed (n0 : nat) (a : addr) (nv : nview addr) : Prop :=
    forall n, n0 <= n -> (forall k, n0 <= k -> node_view (exec n) k a w = (w, Ok nv)) /\
    exec n jtype (CType a) w = (w, Ok (ntype (nv_val nv))) /\
    match nv_val nv with NObj d => NoDup (dkeys d) /\ node_items (exec n) a w = (w, Ok d) | _ => True end.

  Definition pview (p : payload) : option (nval addr) :=
    match p with PNull => Some NNull | PBool b => Some (NBool b) | PNum d => Some (NNum d) | PStr t => Some (NStr t) | PArr l => Some (NArr l) | PObj d => Some (NObj d) | PRef _ => None end.
  Lemma viewed_plain a p v : val (w_heap w) a p -> pview p = Some v -> match v with NObj d => NoDup (dkeys d) | _ => True end -> viewed 1 a (NView v false).
  Proof.
    intros Hv E Nd m Hm. pose proof Hv as (n & Hn & En). split; [|split].
    - intros k Hk. destruct k as [|k]; [lia|]. cbn [node_view]. unfold mbind. rewrite (node_at_ok _ _ _ Hn), En. destruct p; try discriminate E; injection E as <-; reflexivity.
    - cbn [nv_val]. destruct m as [|m]; [lia|]. cbn [Doc.exec Doc.step]. unfold node_type, mbind. rewrite (node_at_ok _ _ _ Hn), En. destruct p; try discriminate E; injection E as <-; reflexivity.
    - cbn [nv_val]. destruct p; try discriminate E; injection E as <-; try exact I. split; [exact Nd|]. apply items_obj, Hv.
  Qed.

  Lemma member_parts (f : bool) its d d' : (forall kx, In kx d' -> In kx d) -> part V (f, VDict d) -> (forall z, In z d -> distinct (snd z)) ->
    Forall2 (fun ka kx => fst ka = fst kx /\ (if f then holds (w_heap w) (snd ka) (snd kx) else loaded auth (w_heap w) s (snd ka) (snd kx))) its d' -> Forall2 (member is_part) its (kids f d').
  Proof.
    intros Sub P D F. induction F as [|[k1 c] [k2 z] its d' [E1 E2] F IH]; [constructor|]. cbn [kids map fst snd] in *. subst k2. constructor; [|apply IH; intros; apply Sub; right; assumption].
    split; [reflexivity|]. cbn [snd fst]. assert (I : In (k1, z) d) by (apply Sub; left; reflexivity). split; [|eapply pt_member; eassumption].
    unfold PropsRef.stands. cbn [fst snd]. specialize (D _ I). destruct f; split; assumption.
  Qed.
  Lemma distinct_all d : distinct (VDict d) -> forall z, In z d -> distinct (snd z).
  Proof. intro D. inversion D as [? _ C|?|? N F]; subst; [exfalso; eapply C; reflexivity|]. rewrite Forall_forall in F. exact F. Qed.
  Lemma stands_holds f y a : stands a (f, y) -> (forall d, y <> VDict d) -> holds (w_heap w) a y /\ distinct y.
  Proof. intros S N. destruct f; [exact S|]. destruct S as [H D]. cbn [fst snd] in *. split; [|exact D]. inversion H; subst; [assumption| |]; exfalso; eapply N; reflexivity. Qed.

  (** a reference node and the node it leads to *)
  Lemma ref_viewed a d t v p f nq n0 fv : stands a (false, VDict d) -> dget (u "$ref") d = Some (VStr t) -> local auth t v p ->
    (forall n, nq <= n -> exec n addr (CQuery s p) w = (w, Ok f)) -> viewed n0 f fv ->
    exists oits, Forall2 (fun ka kx => fst ka = fst kx /\ loaded auth (w_heap w) s (snd ka) (snd kx)) oits d /\
      viewed (3 + max n0 nq) a (NView (match nv_val fv with NObj its => NObj (updated (beside oits) its) | z => z end) true).
  Proof.
    intros [H D] Gr L Rq Vf. cbn [fst snd] in *. inversion H as [? ? C|? ? ? C|? ? c oits t' v' p' Gr' L' Hv Hb F]; subst; [exfalso; eapply C; reflexivity|congruence|].
    rewrite Gr in Gr'. injection Gr' as <-. assert (v' = v /\ p' = p) as [-> ->]. { destruct L as (M1 & P1 & _). destruct L' as (M2 & P2 & _). rewrite M1 in M2. injection M2 as <-. rewrite P1 in P2. injection P2 as <-. auto. }
    pose proof Hv as (n & Hn & En). pose proof (NoDup_forall2 _ _ _ F (distinct_dict d D)) as Ndo. exists oits. split; [exact F|].
    assert (Tf : forall m, max n0 nq <= m -> exec m jtype (CType f) w = (w, Ok (ntype (nv_val fv)))) by (intros m Hm; destruct (Vf m) as (_ & T & _); [lia|exact T]).
    assert (RawR : forall m, 1 + max n0 nq <= m -> exec m raw (CRaw a) w = (w, Ok (match nv_val fv with NObj its => RDict (updated (beside oits) its) | _ => RNode f end))).
    { intros m Hm. destruct m as [|m]; [lia|]. cbn [Doc.exec Doc.step]. unfold ref_raw, mbind. rewrite (node_at_ok _ _ _ Hn), En. cbn [r_schema r_pointer r_node]. rewrite (schema_at_ok _ _ _ Hx), Rx.
      rewrite (Rq m), (Tf m) by lia. destruct (Vf m) as (_ & _ & If); [lia|]. destruct (nv_val fv) as [| | | | |its]; try reflexivity. cbn [ntype]. rewrite (items_obj (exec m) w c oits Hb). destruct If as [_ If]. rewrite If.
      replace (updated (beside oits) its) with (updated (updated [] (beside oits)) its) by (rewrite (update_nil (beside oits) []); [reflexivity|apply NoDup_filter_keys, Ndo]). reflexivity. }
    intros m Hm.
    assert (Ta : exec m jtype (CType a) w = (w, Ok (ntype (nv_val fv)))).
    { destruct m as [|m]; [lia|]. cbn [Doc.exec Doc.step]. unfold node_type, mbind. rewrite (node_at_ok _ _ _ Hn), En. cbn [r_schema r_pointer]. rewrite (Rq m), (Tf m) by lia. reflexivity. }
    split; [|split].
    - intros k Hk. destruct k as [|k]; [lia|]. cbn [node_view]. unfold mbind. rewrite (node_at_ok _ _ _ Hn), En, Ta, (RawR m) by lia. destruct (Vf m) as (K & _); [lia|]. specialize (K k ltac:(lia)). destruct fv as [fv fr]. cbn [nv_val] in *.
      destruct fv; try reflexivity; rewrite K; reflexivity.
    - rewrite Ta. cbn [nv_val]. destruct (nv_val fv); reflexivity.
    - cbn [nv_val]. destruct (nv_val fv) as [| | | | |its] eqn:Ef; try exact I. split; [apply NoDup_update, NoDup_filter_keys, Ndo|]. unfold node_items, mbind. rewrite (node_at_ok _ _ _ Hn), En, (RawR m) by lia. reflexivity.
  Qed.

  Lemma sees_viewed y nv : sees auth dig V y nv -> part V y -> exists n0, forall a, stands a y -> exists nv', viewed n0 a nv' /\ rel_view is_part nv' nv.
  Proof.
    destruct (meaning auth dig strx fetch w s V x Hx Rx Lx Dx A1 A2) as (_ & Mf & _). destruct (parts auth dig V) as (_ & Pf & _).
    induction 1 as [f|f b|f z|f z|f z|f z|f l|d|d Nr|d t v p y tgt b Gr L Fd Sy IH|d t v p y z b Gr L Fd Sy IH Nz]; intro P.
    - exists 1. intros a S. destruct (stands_holds f _ a S ltac:(discriminate)) as [H _]. inversion H as [? Hv| | | | | | |]; subst. eexists. split; [eapply viewed_plain; [exact Hv|reflexivity|exact I]|]. split; [constructor|reflexivity].
    - exists 1. intros a S. destruct (stands_holds f _ a S ltac:(discriminate)) as [H _]. inversion H as [|? ? Hv| | | | | |]; subst. eexists. split; [eapply viewed_plain; [exact Hv|reflexivity|exact I]|]. split; [constructor|reflexivity].
    - exists 1. intros a S. destruct (stands_holds f _ a S ltac:(discriminate)) as [H _]. inversion H as [| | |? ? ? Hv E| | | |]; subst. eexists. split; [eapply viewed_plain; [exact Hv|reflexivity|exact I]|]. split; [constructor|reflexivity].
    - exists 1. intros a S. destruct (stands_holds f _ a S ltac:(discriminate)) as [H _]. inversion H as [| | | |? ? ? Hv E| | |]; subst. eexists. split; [eapply viewed_plain; [exact Hv|reflexivity|exact I]|]. split; [constructor|reflexivity].
    - exists 1. intros a S. destruct (stands_holds f _ a S ltac:(discriminate)) as [H _]. inversion H as [| | | | |? ? ? Hv E| |]; subst. eexists. split; [eapply viewed_plain; [exact Hv|reflexivity|exact I]|]. split; [constructor|reflexivity].
    - exists 1. intros a S. destruct (stands_holds f _ a S ltac:(discriminate)) as [H _]. inversion H as [| |? ? Hv| | | | |]; subst. eexists. split; [eapply viewed_plain; [exact Hv|reflexivity|exact I]|]. split; [constructor|reflexivity].
    - exists 1. intros a S. destruct (stands_holds f _ a S ltac:(discriminate)) as [H D]. inversion H as [| | | | | |? ? els Hv F|]; subst. eexists. split; [eapply viewed_plain; [exact Hv|reflexivity|exact I]|]. split; [|reflexivity]. constructor.
      assert (K : forall z, In z l -> part V (true, z) /\ distinct z).
      { intros z I. split; [eapply pt_elem; eassumption|]. inversion D as [? C _|? Fd|? _]; subst; [exfalso; eapply C; reflexivity|]. rewrite Forall_forall in Fd. auto. }
      clear -F K. induction F as [|c z els l Hc F IH]; [constructor|]. cbn [map]. constructor; [|apply IH; intros; apply K; right; assumption]. destruct (K z (or_introl eq_refl)) as [K1 K2]. split; [split; [exact Hc|exact K2]|exact K1].
    - exists 1. intros a [H D]. cbn [fst snd] in *. inversion H as [| | | | | | |? ? its Hv F]; subst. pose proof (NoDup_forall2 _ _ _ F (distinct_dict d D)) as Nd.
      eexists. split; [eapply viewed_plain; [exact Hv|reflexivity|exact Nd]|]. split; [|reflexivity]. constructor. eapply (member_parts true); [intros ? I; exact I|exact P|apply distinct_all, D|exact F].
    - exists 1. intros a [H D]. cbn [fst snd] in *. inversion H as [? ? C|? ? its _ Hv F|? ? ? ? ? ? ? C]; subst; [exfalso; eapply C; reflexivity| |congruence].
      pose proof (NoDup_forall2 _ _ _ F (NoDup_ddel _ d (distinct_dict d D))) as Nd. eexists. split; [eapply viewed_plain; [exact Hv|reflexivity|exact Nd]|]. split; [|reflexivity]. constructor.
      eapply (member_parts false); [apply In_ddel|exact P|apply distinct_all, D|exact F].
    - (* a reference to an object *)
      destruct (Mf p y Fd) as (f & [nq Rq] & Sf). destruct (IH (Pf p y Fd)) as [n0 IH0]. destruct (IH0 f Sf) as ([fv fr] & Vf & [Rf _]). cbn [nv_val] in *. inversion Rf as [| | | | |its tgt' Fi]; subst.
      exists (3 + max n0 nq). intros a S. destruct (ref_viewed a d t v p f nq n0 _ S Gr L Rq Vf) as (oits & F & Va). eexists. split; [exact Va|]. split; [|reflexivity]. cbn [nv_val]. constructor. apply updated_rel; [|exact Fi].
      assert (K : Forall2 (fun ka kx => fst ka = fst kx /\ loaded auth (w_heap w) s (snd ka) (snd kx)) (beside oits) (beside d)) by (apply forall2_filter; [intros ? ? [-> _]; reflexivity|exact F]).
      eapply (member_parts false); [|exact P|apply distinct_all; apply S|exact K]. intros kx I. apply filter_In in I. tauto.
    - (* a reference to something else *)
      destruct (Mf p y Fd) as (f & [nq Rq] & Sf). destruct (IH (Pf p y Fd)) as [n0 IH0]. destruct (IH0 f Sf) as ([fv fr] & Vf & [Rf _]). cbn [nv_val] in *.
      exists (3 + max n0 nq). intros a S. destruct (ref_viewed a d t v p f nq n0 _ S Gr L Rq Vf) as (oits & F & Va). eexists. split; [exact Va|]. split; [|reflexivity]. cbn [nv_val].
      inversion Rf; subst; try (constructor; assumption). exfalso; eapply Nz; reflexivity.
  Qed.

  Definition agree (n : nat) (table : list (item * nview item)) : Prop :=
    forall y nv, In (y, nv) table -> forall a, stands a y -> exists nv', see n w a = Ok nv' /\ rel_view is_part nv' nv.
  (** What validation sees of a node is what the document says there. *)
  Lemma see_agrees table : (forall y nv, In (y, nv) table -> part V y /\ sees auth dig V y nv) -> exists n0, forall n, n0 <= n -> agree n table.
  Proof.
    induction table as [|[y nv] l IHl]; intro H; [exists 0; intros n _ y nv []|]. destruct IHl as [n1 IH]; [intros; apply H; right; assumption|]. destruct (H y nv (or_introl eq_refl)) as [P Sy].
    destruct (sees_viewed y nv Sy P) as [n2 Hv]. exists (max n1 n2). intros n Hn z nz [[= <- <-]|I] a Sa; [|apply (IH n ltac:(lia) z nz I a Sa)].
    destruct (Hv a Sa) as (nv' & Va & R). exists nv'. split; [|exact R]. unfold Validate.see. destruct (Va n) as (K & _); [lia|]. rewrite (K n) by lia. reflexivity.
  Qed.
  End World.

  (** a list of what the document says, for each of its parts *)
  Definition covers (V : pv) (Q : item -> nview item -> Prop) (table : list (item * nview item)) : Prop :=
    (forall y nv, In (y, nv) table -> part V y /\ Q y nv) /\ forall y, part V y -> exists nv, In (y, nv) table.
  Lemma covering V (Q : item -> nview item -> Prop) : (forall y, part V y -> exists nv, Q y nv) -> exists table, covers V Q table.
  Proof.
    intro H. assert (K : forall l, (forall y, In y l -> part V y) -> exists table, (forall y nv, In (y, nv) table -> part V y /\ Q y nv) /\ forall y, In y l -> exists nv, In (y, nv) table).
    { induction l as [|y l IH]; intro Hl; [exists []; split; [intros ? ? []|intros ? []]|]. destruct IH as (tb & T1 & T2); [intros; apply Hl; right; assumption|]. pose proof (Hl y (or_introl eq_refl)) as P. destruct (H y P) as [nv Q1].
      exists ((y, nv) :: tb). split; [intros z nz [[= <- <-]|I]; [auto|apply T1, I]|]. intros z [<-|I]; [exists nv; left; reflexivity|]. destruct (T2 z I) as [nz I']. exists nz. right. exact I'. }
    destruct (K (all_parts false V)) as (tb & T1 & T2); [intros y; apply listed_part, pt_root|]. exists tb. split; [exact T1|]. intros y P. apply T2, part_listed, P.
  Qed.
  Lemma rel_view_map {A B C} (R : A -> B -> Prop) (S : A -> C -> Prop) (T : C -> B -> Prop) v1 v2 v3 : (forall a b c, S a c -> T c b -> R a b) -> rel_view S v1 v3 -> rel_view T v3 v2 -> rel_view R v1 v2.
  Proof.
    intros H [S1 S2] [T1 T2]. split; [|congruence]. destruct v1 as [v1 r1], v2 as [v2 r2], v3 as [v3 r3]. cbn [nv_val nv_ref] in *. clear S2 T2. destruct S1 as [| | | |l l' F|d d' F]; inversion T1 as [| | | |? m F'|? m F']; subst; constructor.
    - revert m T1 F'. induction F as [|a c l l' Hac F IH]; intros m T1 F'; inversion F' as [|? b ? m' Hcb F'']; subst; constructor; [eapply H; eassumption|]. apply IH; [constructor; exact F''|exact F''].
    - revert m T1 F'. induction F as [|[k a] [k' c] l l' [E1 E2] F IH]; intros m T1 F'; inversion F' as [|? [k2 b] ? m' [E3 E4] F'']; subst; constructor; [|apply IH; [constructor; exact F''|exact F'']]. cbn [fst snd] in *. split; cbn [fst snd]; [congruence|eapply H; eassumption].
  Qed.
  Lemma rel_view_sym {A B} (R : A -> B -> Prop) v w : rel_view R v w -> rel_view (fun b a => R a b) w v.
  Proof.
    intros [S1 S2]. split; [|auto]. destruct S1 as [| | | |l l' F|d d' F]; constructor; [induction F; constructor; auto|]. induction F as [|? ? ? ? [E1 E2] F IH]; constructor; [split; auto|exact IH].
  Qed.

  (** the document of this value is loaded, ready, in the world [w'] *)
  Definition loads (V : pv) (s : nat) (w0 w' : world) (x : schema) : Prop :=
    ev (fun rec => load rec s) w0 w' (Ok tt) /\ nth_error (w_schemas w') s = Some x /\ s_ready x = true /\ loaded auth (w_heap w') s (s_value x) V.

  Lemma validates E voc V s w0 w' x : loads V s w0 w' x -> exists n0, forall n, n0 <= n -> forall fuel v,
    snd (document_validate auth dig strx fetch E voc n fuel s v w0) = schema_validate (see n w') (strx (w_heap w')) E voc fuel (s_value x) v.
  Proof.
    intros ([n0 L] & Hx & _). exists n0. intros n Hn fuel v. unfold document_validate, load_n, mbind. rewrite (L n Hn), (schema_at_ok _ _ _ Hx). reflexivity.
  Qed.
  Lemma bisimilar {N2} (Q : item -> N2 -> Prop) (view2 : N2 -> res (nview N2)) (str2 : N2 -> pystr) V s w' x n table (E : env) voc :
    loaded auth (w_heap w') s (s_value x) V -> distinct V -> agree w' s V n table -> (forall y, part V y -> exists nv, In (y, nv) table) ->
    (forall y nv b, part V y -> In (y, nv) table -> Q y b -> exists nv2, view2 b = Ok nv2 /\ rel_view Q nv nv2) ->
    (forall a y b, is_part w' s V a y -> Q y b -> strx (w_heap w') a = str2 b) ->
    forall b, Q (false, V) b -> forall fuel v, schema_validate (see n w') (strx (w_heap w')) E voc fuel (s_value x) v = schema_validate view2 str2 E voc fuel b v.
  Proof.
    intros Lx Dx Ag Tb H2 H3 b Qb fuel v. apply (schema_validate_related (fun a b => exists y, is_part w' s V a y /\ Q y b)).
    - intros a c (y & [Sa P] & Qy). destruct (Tb y P) as [nv I]. destruct (Ag y nv I a Sa) as (nv' & -> & R1). destruct (H2 y nv c P I Qy) as (nv2 & -> & R2). constructor. eapply rel_view_map; [|exact R1|exact R2]. cbn. eauto.
    - intros a c (y & Pa & Qy). eapply H3; eassumption.
    - exists (false, V). split; [|exact Qb]. split; [split; [exact Lx|exact Dx]|apply pt_root].
  Qed.

  (** C69: validating with a document is validating with what it says *)
  Theorem C69_document w V s w0 (look : item -> res (nview item)) (says : item -> pystr) : fit_document auth V -> opened w V s w0 ->
    (forall y, part V y -> exists nv, look y = Ok nv /\ sees auth dig V y nv) ->
    (forall w' a y, stands auth w' s a y -> strx (w_heap w') a = says y) ->
    forall E voc, exists n0, forall n, n0 <= n -> forall fuel v,
      snd (document_validate auth dig strx fetch E voc n fuel s v w0) = schema_validate look says E voc fuel (false, V) v.
  Proof.
    intros Ft O Lk Sy E voc. destruct (ready_document auth dig strx fetch w V s w0 Ft O) as (w' & x & L & Hx & Rx & Lx & Dx & A1 & A2).
    destruct (validates E voc V s w0 w' x) as [n1 Hv]; [repeat split; assumption|].
    destruct (covering V (fun y nv => look y = Ok nv /\ sees auth dig V y nv) Lk) as (tb & T1 & T2).
    destruct (see_agrees w' s V x Hx Rx Lx Dx A1 A2 tb) as [n2 Ag]; [intros y nv I; destruct (T1 y nv I) as (? & ? & ?); auto|].
    exists (max n1 n2). intros n Hn fuel v. rewrite Hv by lia. apply (bisimilar eq look says V s w' x n tb); [exact Lx|exact Dx|apply Ag; lia|exact T2| | |reflexivity].
    - intros y nv b P I <-. exists nv. split; [apply (T1 y nv I)|]. split; [|reflexivity]. destruct (nv_val nv); constructor; [induction l; constructor; auto|]. induction items as [|? ? IH]; constructor; [split; reflexivity|exact IH].
    - intros a y b [Sa _] <-. eapply Sy, Sa.
  Qed.

  (** C70: the outcome depends on the JSON value of the document alone, not on
      what was loaded before it *)
  Theorem C70_history V w1 s1 w01 w2 s2 w02 : fit_document auth V -> resolves auth dig V -> opened w1 V s1 w01 -> opened w2 V s2 w02 ->
    (forall w w' a b y, stands auth w s1 a y -> stands auth w' s2 b y -> strx (w_heap w) a = strx (w_heap w') b) ->
    forall E voc, exists n0, forall n, n0 <= n -> forall fuel v,
      snd (document_validate auth dig strx fetch E voc n fuel s1 v w01) = snd (document_validate auth dig strx fetch E voc n fuel s2 v w02).
  Proof.
    intros Ft Rs O1 O2 Sy E voc. destruct (covering V (sees auth dig V) Rs) as (tb & T1 & T2).
    destruct (ready_document auth dig strx fetch w1 V s1 w01 Ft O1) as (w1' & x1 & L1 & Hx1 & Rx1 & Lx1 & Dx & A11 & A12).
    destruct (ready_document auth dig strx fetch w2 V s2 w02 Ft O2) as (w2' & x2 & L2 & Hx2 & Rx2 & Lx2 & _ & A21 & A22).
    destruct (validates E voc V s1 w01 w1' x1) as [n1 Hv1]; [repeat split; assumption|]. destruct (validates E voc V s2 w02 w2' x2) as [n2 Hv2]; [repeat split; assumption|].
    destruct (see_agrees w1' s1 V x1 Hx1 Rx1 Lx1 Dx A11 A12 tb T1) as [n3 Ag1]. destruct (see_agrees w2' s2 V x2 Hx2 Rx2 Lx2 Dx A21 A22 tb T1) as [n4 Ag2].
    exists (max (max n1 n2) (max n3 n4)). intros n Hn fuel v. rewrite Hv1, Hv2 by lia.
    apply (bisimilar (fun y b => is_part w2' s2 V b y) (see n w2') (strx (w_heap w2')) V s1 w1' x1 n tb); [exact Lx1|exact Dx|apply Ag1; lia|exact T2| | |].
    - intros y nv b P I [Sb _]. destruct (Ag2 n ltac:(lia) y nv I b Sb) as (nv2 & E2 & R2). exists nv2. split; [exact E2|]. apply rel_view_sym, R2.
    - intros a y b [Sa _] [Sb _]. eapply Sy; eassumption.
    - split; [split; [exact Lx2|exact Dx]|apply pt_root].
  Qed.

  (** C71: a document without references and anchors is the schema its JSON value
      is *)
  Definition free (V : pv) : Prop := forall d, part V (false, VDict d) -> dget (u "$ref") d = None /\ dget (u "$anchor") d = None.
  Lemma ddel_absent {A} k (d : list (pystr * A)) : dget k d = None -> ddel k d = d.
  Proof. induction d as [|[k1 y] d IH]; intro H; [reflexivity|]. cbn [dget ddel] in *. destruct (str_eqb k k1); [discriminate|]. rewrite IH by exact H. reflexivity. Qed.
  Theorem C71_plain w V s w0 (says : pv -> pystr) : fit_document auth V -> free V -> opened w V s w0 ->
    (forall w' a f y, part V (f, y) -> stands auth w' s a (f, y) -> strx (w_heap w') a = says y) ->
    forall E voc, exists n0, forall n, n0 <= n -> forall fuel v,
      snd (document_validate auth dig strx fetch E voc n fuel s v w0) = schema_validate pv_view says E voc fuel V v.
  Proof.
    intros Ft Fr O Sy E voc. destruct (ready_document auth dig strx fetch w V s w0 Ft O) as (w' & x & L & Hx & Rx & Lx & Dx & A1 & A2).
    destruct (validates E voc V s w0 w' x) as [n1 Hv]; [repeat split; assumption|].
    assert (Lk : forall y, part V y -> exists nv, sees auth dig V y nv /\ exists nv2, pv_view (snd y) = Ok nv2 /\ rel_view (fun (z : item) b => snd z = b) nv nv2).
    { intros [f z] P. cbn [snd]. assert (Ek : forall g d, Forall2 (member (fun (z : item) b => snd z = b)) (kids g d) d) by (intros g d; unfold kids; induction d as [|kx d IH]; constructor; [split; reflexivity|exact IH]).
      destruct z; try (eexists; split; [constructor|]; eexists; split; [reflexivity|]; split; [constructor|reflexivity]).
      - clear. induction l as [|y l IH]; constructor; [reflexivity|exact IH].
      - destruct f; [eexists; split; [constructor|]; eexists; split; [reflexivity|]; split; [constructor; apply Ek|reflexivity]|]. destruct (Fr d P) as [F1 F2].
        eexists; split; [apply se_obj, F1|]; eexists; split; [reflexivity|]; split; [|reflexivity]. cbn [nv_val]. rewrite (ddel_absent _ _ F2). constructor. apply Ek. }
    destruct (covering V _ Lk) as (tb & T1 & T2). destruct (see_agrees w' s V x Hx Rx Lx Dx A1 A2 tb) as [n2 Ag]; [intros y nv I; destruct (T1 y nv I) as (? & ? & ?); auto|].
    exists (max n1 n2). intros n Hn fuel v. rewrite Hv by lia. apply (bisimilar (fun (z : item) b => snd z = b) pv_view says V s w' x n tb); [exact Lx|exact Dx|apply Ag; lia|exact T2| | |reflexivity].
    - intros y nv b P I <-. destruct (T1 y nv I) as (_ & _ & nv2 & E1 & E2). eauto.
    - intros a [f y] b [Sa P] <-. eapply Sy; eassumption.
  Qed.

  (** C72: a schema that is only a reference accepts and rejects as its target,
      with the same errors *)
  Lemma only_val {N} (view : N -> res (nview N)) (st : N -> pystr) E voc a b va vb : view a = Ok va -> view b = Ok vb -> nv_val va = nv_val vb ->
    forall fuel v c, validate view st E voc fuel a v c = validate view st E voc fuel b v c.
  Proof.
    intros Ha Hb Ev. assert (K : compile view st E voc a = compile view st E voc b).
    { unfold compile. rewrite Ha, Hb. cbn [bind]. rewrite Ev. assert (Ek : forall d, run_kws view st E va voc d = run_kws view st E vb voc d).
      { clear -Ev. induction voc as [|k voc IH]; intro d; [reflexivity|]. cbn [run_kws]. unfold step_kw, can_apply. rewrite Ev. destruct (match nv_val vb with NNull | NBool _ | NNum _ => _ | _ => _ end) as [[|]| |]; cbn [bind]; try reflexivity; [|apply IH].
        destruct (nv_val vb); try reflexivity. destruct (apply view st E k items d); cbn [bind]; try reflexivity. apply IH. }
      destruct (nv_val vb); try reflexivity; apply Ek. }
    intros [|fuel] v c; [reflexivity|]. cbn [validate]. rewrite K. reflexivity.
  Qed.
  Theorem C72_reference w V s w0 t v p y nv : fit_document auth V -> opened w V s w0 ->
    local auth t v p -> finds auth dig V p y -> sees auth dig V y nv ->
    exists w' c n0, ev (fun rec => load rec s) w0 w' (Ok tt) /\ Runs (CQuery s p) w' w' (Ok c) /\ stands auth w' s c y /\
      forall n, n0 <= n -> forall a, stands auth w' s a (false, VDict [(u "$ref", VStr t)]) -> forall E voc fuel st x ctx,
        validate (see n w') st E voc fuel a x ctx = validate (see n w') st E voc fuel c x ctx.
  Proof.
    intros Ft O Lo Fd Sy. destruct (ready_document auth dig strx fetch w V s w0 Ft O) as (w' & x & L & Hx & Rx & Lx & Dx & A1 & A2).
    destruct (meaning auth dig strx fetch w' s V x Hx Rx Lx Dx A1 A2) as (_ & Mf & _). destruct (Mf p y Fd) as (c & Rq & Sc). pose proof Rq as [nq Hq].
    destruct (parts auth dig V) as (_ & Pf & _). destruct (sees_viewed w' s V x Hx Rx Lx Dx A1 A2 y nv Sy (Pf p y Fd)) as [n1 Hc]. destruct (Hc c Sc) as (vc & Vc & _).
    exists w', c, (3 + max n1 nq). do 3 (split; [assumption|]). intros n Hn a Sa E voc fuel st z ctx.
    destruct (ref_viewed w' s x Hx Rx a _ t v p c nq n1 vc Sa eq_refl Lo Hq Vc) as (oits & F & Va).
    assert (Ea : see n w' a = Ok (NView (nv_val vc) true)).
    { unfold Validate.see. destruct (Va n Hn) as (K & _). rewrite (K n Hn). cbn [snd]. do 2 f_equal. destruct (Vc n) as (_ & _ & Nd); [lia|]. destruct (nv_val vc) as [| | | | |its]; try reflexivity. f_equal.
      inversion F as [|[k1 c1] [? ?] o1 ? [E1 _] F1]; subst. inversion F1; subst. cbn [fst] in E1. subst k1. change (updated (@nil (pystr * addr)) its = its). apply (update_nil its []). apply Nd. }
    apply (only_val (see n w') st E voc a c _ vc Ea); [|reflexivity]. unfold Validate.see. destruct (Vc n) as (K & _); [lia|]. rewrite (K n) by lia. reflexivity.
  Qed.
End Seeing.

(** ** Cases *)
(** a list of numbers: a recursive schema *)
Definition C69_value : pv := VDict [
  (u "properties", VDict [(u "next", VDict [(u "$ref", VStr (u "#"))]); (u "n", VDict [(u "$ref", VStr (u "#/defs/n")); (u "minimum", VInt 9)])]);
  (u "defs", VDict [(u "n", VDict [(u "type", VStr (u "number")); (u "minimum", VInt 3)])])].
Definition C69_n : list (pystr * item) := kids false [(u "type", VStr (u "number")); (u "minimum", VInt 3)].
Definition C69_look (y : item) : res (nview item) :=
  match y with
  | (_, VInt z) => Ok (NView (NNum (Dec z 0)) false)
  | (_, VStr t) => Ok (NView (NStr t) false)
  | (false, VDict d) =>
      match dget (u "$ref") d with
      | None => Ok (NView (NObj (kids false d)) false)
      | Some (VStr [_]) => match C69_value with VDict e => Ok (NView (NObj (kids false e)) true) | _ => Raise EOther end
      | Some _ => Ok (NView (NObj [(u "minimum", (false, VInt 3)); (u "type", (false, VStr (u "number")))]) true)
      end
  | _ => Raise EOther
  end.
Lemma C69_none q k : ~ declares C69_value q k.
Proof.
  assert (H : forall v, (fix ok (v : pv) : bool := match v with VDict d => negb (dmem (u "$anchor") d) && forallb (fun kx => ok (snd kx)) d | _ => true end) v = true -> forall q d, inside v q (VDict d) -> dget (u "$anchor") d = None).
  { intros v Hv q' d I. remember (VDict d) as y eqn:Ey. revert Hv. induction I as [v|d1 k' x p y G _ IH]; intro Hv; subst.
    - apply andb_prop in Hv as [Hv _]. unfold dmem in Hv. destruct (dget (u "$anchor") d); [discriminate|reflexivity].
    - apply IH; [reflexivity|]. apply andb_prop in Hv as [_ Hv]. rewrite forallb_forall in Hv. apply (Hv (k', x)). apply dget_In, G. }
  intros (d & I & _ & A). rewrite (H C69_value eq_refl q d I) in A. discriminate.
Qed.
Lemma sees_is auth dig V y nv nv' : sees auth dig V y nv -> nv = nv' -> sees auth dig V y nv'.
Proof. intros H <-. exact H. Qed.
Lemma C69_sees y : part C69_value y -> exists nv, C69_look y = Ok nv /\ sees toy ex_dig C69_value y nv.
Proof.
  assert (Rt : sees toy ex_dig C69_value (false, C69_value) (NView (NObj (match C69_value with VDict e => kids false e | _ => [] end)) false)) by (eapply sees_is; [apply se_obj; reflexivity|vm_compute; reflexivity]).
  assert (Rn : sees toy ex_dig C69_value (false, VDict [(u "type", VStr (u "number")); (u "minimum", VInt 3)]) (NView (NObj C69_n) false)) by (eapply sees_is; [apply se_obj; reflexivity|vm_compute; reflexivity]).
  intro P. apply part_listed in P. vm_compute in P.
  repeat (destruct P as [<-|P]; [eexists; split; [reflexivity|]; try (constructor; fail); try (eapply sees_is; [apply se_obj; reflexivity|vm_compute; reflexivity])|]); try destruct P.
  - eapply sees_is; [eapply se_ref; [reflexivity|split; [vm_compute; reflexivity|split; [vm_compute; reflexivity|eexists; split; [vm_compute; reflexivity|reflexivity]]]|apply fd_steps; [discriminate|intros; apply C69_none|apply st_here]|exact Rt]|vm_compute; reflexivity].
  - eapply sees_is; [eapply se_ref; [reflexivity|split; [vm_compute; reflexivity|split; [vm_compute; reflexivity|eexists; split; [vm_compute; reflexivity|reflexivity]]]|
      apply fd_steps; [discriminate|intros; apply C69_none|eapply st_member; [apply rd_obj; reflexivity|reflexivity|eapply st_member; [apply rd_obj; reflexivity|reflexivity|apply st_here]]]|exact Rn]|vm_compute; reflexivity].
Qed.
Definition C69_str (h : heap) (a : addr) : pystr := u "?".
Definition C69_fetch (v : uri) : res pv := Raise EFileNotFound.
Definition C69_world : world := fst (make_schema C69_value core (World [] [] [])).
Example C69_some : fit_document toy C69_value /\ opened (World [] [] []) C69_value 0 C69_world /\
  (forall y, part C69_value y -> exists nv, C69_look y = Ok nv /\ sees toy ex_dig C69_value y nv) /\ resolves toy ex_dig C69_value /\
  let run v := snd (document_validate toy ex_dig C69_str C69_fetch ex_env all_keywords 20 20 0 v C69_world) in
  run (VDict [(u "next", VDict [(u "next", VDict [(u "n", VInt 4)])])]) = Ok tt /\
  (exists e, run (VDict [(u "next", VDict [(u "next", VDict [(u "n", VInt 2)])])]) = Raise (EValid e)) /\
  (exists e, run (VDict [(u "n", VInt 2)]) = Raise (EValid e)).
Proof.
  split; [apply fit_documentb_ok; vm_compute; reflexivity|]. split; [reflexivity|]. split; [exact C69_sees|]. split; [intros y P; destruct (C69_sees y P) as (nv & _ & H); eauto|].
  cbv zeta. split; [vm_compute; reflexivity|]. split; eexists; vm_compute; reflexivity.
Qed.
(** the same document after others *)
Definition C70_world : world := fst ((_ <~ make_schema C46_value core ;; make_schema C69_value core) (World [] [] [])).
Example C70_some : exists w2, opened w2 C69_value 1 C70_world /\ C70_world <> C69_world /\
  (forall w w' a b y, stands toy w 0 a y -> stands toy w' 1 b y -> C69_str (w_heap w) a = C69_str (w_heap w') b) /\
  let run1 v := snd (document_validate toy ex_dig C69_str C69_fetch ex_env all_keywords 20 20 0 v C69_world) in
  let run2 v := snd (document_validate toy ex_dig C69_str C69_fetch ex_env all_keywords 20 20 1 v C70_world) in
  run1 (VDict [(u "n", VInt 2)]) = run2 (VDict [(u "n", VInt 2)]) /\ run1 (VDict [(u "n", VInt 4)]) = run2 (VDict [(u "n", VInt 4)]).
Proof.
  exists (fst (make_schema C46_value core (World [] [] []))). split; [vm_compute; reflexivity|]. split; [vm_compute; discriminate|]. split; [reflexivity|].
  cbv zeta. split; vm_compute; reflexivity.
Qed.
(** references inside arrays are not followed *)
Definition C71_value : pv := VDict [(u "allOf", VList [VDict [(u "type", VStr (u "number"))]; VDict [(u "$ref", VStr (u "#/x"))]]); (u "minimum", VInt 3)].
Definition C71_world : world := fst (make_schema C71_value core (World [] [] [])).
Example C71_some : fit_document toy C71_value /\ free C71_value /\ opened (World [] [] []) C71_value 0 C71_world /\
  let run v := snd (document_validate toy ex_dig C69_str C69_fetch ex_env all_keywords 20 20 0 v C71_world) in
  run (VInt 3) = Ok tt /\ (exists e, run (VInt 2) = Raise (EValid e)) /\ (exists e, run (VStr (u "a")) = Raise (EValid e)).
Proof.
  split; [apply fit_documentb_ok; vm_compute; reflexivity|]. split.
  - intros d P. apply part_listed in P. vm_compute in P. repeat (destruct P as [P|P]; [try discriminate P; injection P as <-; split; reflexivity|]). destruct P.
  - split; [reflexivity|]. cbv zeta. split; [vm_compute; reflexivity|]. split; eexists; vm_compute; reflexivity.
Qed.
Example C72_some : exists t v p y nv a, local toy t v p /\ finds toy ex_dig C69_value p y /\ sees toy ex_dig C69_value y nv /\
  stands toy (fst (load_n toy ex_dig C69_str C69_fetch 20 0 C69_world)) 0 a (false, VDict [(u "$ref", VStr t)]) /\ p = [] /\ y = (false, C69_value).
Proof.
  destruct (C69_sees (false, C69_value) (pt_root _)) as (nv & _ & Sr). exists (u "#"). do 2 eexists. exists (false, C69_value), nv. 
  destruct (ready_document toy ex_dig C69_str C69_fetch (World [] [] []) C69_value 0 C69_world) as (w' & x & [n0 L] & Hx & Rx & Lx & _); [apply fit_documentb_ok; vm_compute; reflexivity|reflexivity|].
  assert (E : w' = fst (load_n toy ex_dig C69_str C69_fetch 20 0 C69_world)).
  { assert (Ev : ev toy ex_dig C69_str C69_fetch (fun rec => load rec 0) C69_world (fst (load_n toy ex_dig C69_str C69_fetch 20 0 C69_world)) (Ok tt)) by (apply (ev_once _ _ _ _ (fun rec => load rec 0) _ _ _ 20); [intros; apply mono_load; assumption|vm_compute; reflexivity|discriminate]).
    apply (ev_det toy ex_dig C69_str C69_fetch (fun rec => load rec 0) C69_world _ (Ok tt) _ (Ok tt)); [exists n0; exact L|exact Ev]. }
  subst w'. inversion Lx as [? ? C|? ? its Nr Hv F|? ? ? ? ? ? ? C]; subst; [exfalso; eapply C; reflexivity| |discriminate]. change (ddel (u "$anchor") _) with (match C69_value with VDict e => e | _ => [] end) in F. cbn [C69_value] in F.
  inversion F as [|[k1 c1] ? o1 ? [E1 L1] F1]; subst. cbn [snd] in L1. inversion L1 as [? ? C|? ? its1 Nr1 Hv1 G|? ? ? ? ? ? ? C]; subst; [exfalso; eapply C; reflexivity| |discriminate].
  change (ddel (u "$anchor") ?d) with d in G. inversion G as [|[k2 c2] ? o2 ? [E2 L2] G1]; subst. cbn [snd] in L2.
  exists c2. split; [split; [vm_compute; reflexivity|split; [vm_compute; reflexivity|eexists; split; [vm_compute; reflexivity|reflexivity]]]|]. split; [apply fd_steps; [discriminate|intros; apply C69_none|apply st_here]|].
  split; [exact Sr|]. split; [|split; reflexivity]. split; [exact L2|]. cbn [snd]. apply d_dict; [repeat constructor; intros []|repeat constructor; discriminate].
Qed.
