(** C81: validating across documents. *)
From Verif Require Import PyBase PyBaseFacts PyVal OrderFacts Regex Numbers Uri Pointer PropsPointer Store Errors Validators Keywords Heap HeapFacts PropsWrap PropsPlaces PropsUriEx Doc DocMono DocFacts PropsQuery DocLoad PropsLoad DocDocument PropsAnchor PropsRef Parametric Interrupt Validate PropsValidate Live DocLibrary DocReading PropsRemote ExBase.
Local Open Scope nat_scope.
Local Notation length := List.length (only parsing).

(** ** What documents that refer to one another are as schemas *)
Definition here (V : pv) (f : bool) (d : list (pystr * pv)) : list (pystr * piece) := map (fun kx => (fst kx, (V, (f, snd kx)))) d.
Section Shows.
  Variables (auth : pystr -> option authority) (dig : N -> option Z) (Lib : pystr -> option pv).
  (** what a value of a document is as a schema; [names] and [leads] (DocReading.v)
      are the document and the place that a reference means *)
  Inductive shows : piece -> nview piece -> Prop :=
  | sw_null V f : shows (V, (f, VNone)) (NView NNull false)
  | sw_bool V f b : shows (V, (f, VBool b)) (NView (NBool b) false)
  | sw_int V f z : shows (V, (f, VInt z)) (NView (NNum (Dec z 0)) false)
  | sw_float V f x : shows (V, (f, VFloat x)) (NView (NNum (frepr x)) false)
  | sw_dec V f d : shows (V, (f, VDec d)) (NView (NNum d) false)
  | sw_str V f s : shows (V, (f, VStr s)) (NView (NStr s) false)
  | sw_list V f l : shows (V, (f, VList l)) (NView (NArr (map (fun x => (V, (true, x))) l)) false)
  (** inside an array nothing is followed *)
  | sw_raw V d : shows (V, (true, VDict d)) (NView (NObj (here V true d)) false)
  | sw_obj V d : dget (u "$ref") d = None -> shows (V, (false, VDict d)) (NView (NObj (here V false (ddel (u "$anchor") d))) false)
  (** a reference to an object: its members over those beside the reference *)
  | sw_ref V d t V' p y tgt b : dget (u "$ref") d = Some (VStr t) -> names auth Lib V t V' p -> leads auth dig Lib V' p y -> shows y (NView (NObj tgt) b) ->
      shows (V, (false, VDict d)) (NView (NObj (updated (here V false (beside d)) tgt)) true)
  (** a reference to something else *)
  | sw_ref_val V d t V' p y z b : dget (u "$ref") d = Some (VStr t) -> names auth Lib V t V' p -> leads auth dig Lib V' p y -> shows y (NView z b) -> (forall o, z <> NObj o) ->
      shows (V, (false, VDict d)) (NView z true).
  (** the values of a document and of those of the library *)
  Definition within (V : pv) (y : piece) : Prop := (fst y = V \/ exists k, Lib k = Some (fst y)) /\ part (fst y) (snd y).

  Section Within.
    Variable V0 : pv.
    Notation known V := (V = V0 \/ exists k, Lib k = Some V).
    Lemma names_known V t V' p : names auth Lib V t V' p -> known V -> known V'.
    Proof. intros [(v & _ & ->)|(v & k & _ & Lk)] K; [exact K|right; eauto]. Qed.
    Lemma within_parts : (forall y sh, means auth dig Lib y sh -> within V0 y -> match sh with VMembers look => forall k z, look k = Some z -> within V0 z | VValue z => within V0 z end) /\
      (forall V p y, leads auth dig Lib V p y -> known V -> within V0 y) /\ (forall y p z, passes auth dig Lib y p z -> within V0 y -> within V0 z).
    Proof.
      apply saying_ind.
      - intros V d [K P] k z G. unfold below_it in G. destruct (dget k d) as [x|] eqn:E; [|discriminate]. injection G as <-. split; [exact K|]. eapply pt_member; [exact P|apply dget_In, E].
      - intros V d N [K P] k z G. unfold below_it in G. destruct (dget k (ddel _ d)) as [x|] eqn:E; [|discriminate]. injection G as <-. split; [exact K|]. eapply pt_member; [exact P|]. eapply In_ddel, dget_In, E.
      - intros V f x _ P. exact P.
      - intros V d t V' p y look G Na _ IHl _ IH W k z Hz. destruct W as [K P]. cbn [fst snd] in *. pose proof (IHl (names_known _ _ _ _ Na K)) as Wy. destruct (look k) as [z'|] eqn:E; [injection Hz as <-; exact (IH Wy k _ E)|]. destruct (str_eqb k _); [discriminate|].
        unfold below_it in Hz. destruct (dget k d) as [x|] eqn:Ed; [|discriminate]. injection Hz as <-. split; [exact K|]. eapply pt_member; [exact P|apply dget_In, Ed].
      - intros V d t V' p y z G Na _ IHl _ IH [K P]. exact (IH (IHl (names_known _ _ _ _ Na K))).
      - intros V name q d _ I _ K. split; [exact K|]. cbn [fst snd]. eapply inside_part, I.
      - intros V _ K. split; [exact K|]. apply pt_root.
      - intros V p y _ _ _ IH K. apply IH. split; [exact K|]. apply pt_root.
      - intros x P. exact P.
      - intros x look k y p z _ IHr G _ IHs P. apply IHs. exact (IHr P k y G).
      - intros V f l k i y p z _ G _ IHs [K P]. apply IHs. split; [exact K|]. cbn [fst snd] in *. eapply part_elem; eassumption.
    Qed.
    Definition all_within (v : nval piece) : Prop := match v with NArr l => Forall (within V0) l | NObj d => Forall (fun kx => within V0 (snd kx)) d | _ => True end.
    Lemma here_within V f d d' : within V0 (V, (f, VDict d)) -> (forall kx, In kx d' -> In kx d) -> Forall (fun kx => within V0 (snd kx)) (here V f d').
    Proof.
      intros [K P] Sub. unfold here. apply Forall_forall. intros kx I. apply in_map_iff in I as ([k x] & <- & I). split; [exact K|]. cbn [fst snd] in *. eapply pt_member; [exact P|apply Sub, I].
    Qed.
    Lemma updated_all {A} (Q : A -> Prop) (o t : list (pystr * A)) : Forall (fun kx => Q (snd kx)) o -> Forall (fun kx => Q (snd kx)) t -> Forall (fun kx => Q (snd kx)) (updated o t).
    Proof.
      intros Ho Ht. unfold updated. revert o Ho. induction Ht as [|[k x] t Hx Ht IH]; intros o Ho; [exact Ho|]. cbn [fold_left fst snd] in *. apply IH. clear -Ho Hx. induction Ho as [|[k1 y] o Hy Ho IH]; cbn [dset]; [constructor; [exact Hx|constructor]|].
      destruct (str_eqb k k1); constructor; assumption.
    Qed.
    Lemma shows_within y nv : shows y nv -> within V0 y -> all_within (nv_val nv).
    Proof.
      induction 1 as [V f|V f b|V f z|V f x|V f d|V f s|V f l|V d|V d Nr|V d t V' p y tgt b Gr Na Le Sy IH|V d t V' p y z b Gr Na Le Sy IH Nz]; intro W; cbn [nv_val all_within]; try exact I.
      - destruct W as [K P]. apply Forall_forall. intros z Iz. apply in_map_iff in Iz as (x & <- & Ix). split; [exact K|]. cbn [fst snd] in *. eapply pt_elem; eassumption.
      - eapply here_within; [exact W|auto].
      - eapply here_within; [exact W|apply In_ddel].
      - apply updated_all; [eapply here_within; [exact W|]; intros kx I; apply filter_In in I; tauto|]. apply IH. apply (proj1 (proj2 within_parts) _ _ _ Le). eapply names_known; [exact Na|exact (proj1 W)].
      - apply IH. apply (proj1 (proj2 within_parts) _ _ _ Le). eapply names_known; [exact Na|exact (proj1 W)].
    Qed.
  End Within.
End Shows.

Definition dec_dec (d e : dec) : {d = e} + {d <> e}.
Proof. repeat decide equality. Defined.
Definition pfloat_dec (d e : pfloat) : {d = e} + {d <> e}.
Proof. repeat decide equality. Defined.
Fixpoint pv_same (x y : pv) : bool :=
  match x, y with
  | VNone, VNone => true
  | VBool b, VBool c => Bool.eqb b c
  | VInt a, VInt b => Z.eqb a b
  | VFloat f, VFloat g => if pfloat_dec f g then true else false
  | VDec d, VDec e => if dec_dec d e then true else false
  | VStr s, VStr t => str_eqb s t
  | VList l, VList m => (fix go l m := match l, m with [], [] => true | x :: l', y :: m' => pv_same x y && go l' m' | _, _ => false end) l m
  | VDict l, VDict m => (fix go l m := match l, m with [], [] => true | (k, x) :: l', (j, y) :: m' => str_eqb k j && pv_same x y && go l' m' | _, _ => false end) l m
  | _, _ => false
  end.
Lemma pv_same_ok x : forall y, pv_same x y = true <-> x = y.
Proof.
  induction x as [x Hl Hd|l IH|d IH] using pv_ind_deep; intro y.
  - destruct x as [|b|z|f|d|t|l|d]; try (exfalso; eapply Hl; reflexivity); try (exfalso; eapply Hd; reflexivity); destruct y as [|b'|z'|f'|d'|t'|l'|d']; cbn [pv_same]; try (split; discriminate).
    + split; reflexivity.
    + rewrite Bool.eqb_true_iff. split; congruence.
    + rewrite Z.eqb_eq. split; congruence.
    + destruct (pfloat_dec f f'); split; congruence.
    + destruct (dec_dec d d'); split; congruence.
    + destruct (str_eqb_spec t t'); split; congruence.
  - destruct y as [| | | | | |m|]; try (split; discriminate). assert (K : pv_same (VList l) (VList m) = true <-> l = m); [|rewrite K; split; congruence].
    revert m. induction IH as [|x l Hx _ IHl]; intros [|y m]; cbn [pv_same] in *; try (split; [reflexivity|reflexivity]); try (split; discriminate). rewrite andb_true_iff, Hx, IHl. split; [intros [-> ->]; reflexivity|intros [= -> ->]; auto].
  - destruct y as [| | | | | | |m]; try (split; discriminate). assert (K : pv_same (VDict d) (VDict m) = true <-> d = m); [|rewrite K; split; congruence].
    revert m. induction IH as [|[k x] l Hx _ IHl]; intros [|[j y] m]; cbn [pv_same] in *; try (split; [reflexivity|reflexivity]); try (split; discriminate). cbn [snd] in Hx. rewrite !andb_true_iff, Hx, IHl. destruct (str_eqb_spec k j) as [->|Nk]; [split; [intros [[_ ->] ->]; reflexivity|intros [= -> ->]; auto]|split; [intros [[C _] _]; discriminate|intros [= C]; congruence]].
Qed.
Lemma pv_dec (x y : pv) : x = y \/ x <> y.
Proof. destruct (pv_same x y) eqn:E; [left; apply pv_same_ok, E|right; intros ->; rewrite (proj2 (pv_same_ok y y) eq_refl) in E; discriminate]. Qed.
Definition piece_same (y z : piece) : bool := pv_same (fst y) (fst z) && Bool.eqb (fst (snd y)) (fst (snd z)) && pv_same (snd (snd y)) (snd (snd z)).
Lemma piece_same_ok y z : piece_same y z = true <-> y = z.
Proof. destruct y as [V [f x]], z as [V' [g x']]. unfold piece_same. cbn [fst snd]. rewrite !andb_true_iff, !pv_same_ok, Bool.eqb_true_iff. split; [intros [[-> ->] ->]; reflexivity|intros [= -> -> ->]; auto]. Qed.

Section Reader.
  Variables (auth : pystr -> option authority) (dig : N -> option Z) (strx : heap -> addr -> pystr) (fetch : uri -> res pv).
  Variable Lib : pystr -> option pv.
  Notation exec := (exec auth dig strx fetch).
  Notation Runs := (Runs auth dig strx fetch).
  Notation ev := (ev auth dig strx fetch).
  Notation state := (state auth Lib).
  Notation stands_for := (stands_for auth Lib).
  Notation viewed := (viewed auth dig strx fetch).
  Notation shows := (shows auth dig Lib).
  Hypothesis Dig : digits_ok dig.
  Hypothesis LibOk : forall k V, Lib k = Some V -> sound_document auth Lib V.
  Hypothesis Fetch : forall t v k p V, remote auth t v k p -> Lib k = Some V -> fetch v = Ok V.

  Definition viewed_leaf w := viewed_plain auth dig strx fetch w (Schema 0 true [] [] None) eq_refl.
  Definition merged (its : list (pystr * addr)) (fv : nview addr) : nview addr := NView (match nv_val fv with NObj t => NObj (updated (beside its) t) | z => z end) true.
  (** a reference node and the node it leads to *)
  Lemma ref_seen w a v b e p its x f nq n0 fv : val (w_heap w) a (PRef (RefData v b e p)) -> val (w_heap w) b (PObj its) -> NoDup (dkeys its) ->
    nth_error (w_schemas w) e = Some x -> s_ready x = true -> (forall n, nq <= n -> exec n addr (CQuery e p) w = (w, Ok f)) -> viewed w n0 f fv -> viewed w (3 + max n0 nq) a (merged its fv).
  Proof.
    intros Hv Hb Ndo Hx Rx Rq Vf. pose proof Hv as (n & Hn & En).
    assert (Tf : forall m, max n0 nq <= m -> exec m jtype (CType f) w = (w, Ok (ntype (nv_val fv)))) by (intros m Hm; destruct (Vf m) as (_ & T & _); [lia|exact T]).
    assert (RawR : forall m, 1 + max n0 nq <= m -> exec m raw (CRaw a) w = (w, Ok (match nv_val fv with NObj t => RDict (updated (beside its) t) | _ => RNode f end))).
    { intros m Hm. destruct m as [|m]; [lia|]. cbn [Doc.exec Doc.step]. unfold ref_raw, mbind. rewrite (node_at_ok _ _ _ Hn), En. cbn [r_schema r_pointer r_node]. rewrite (schema_at_ok _ _ _ Hx), Rx.
      rewrite (Rq m), (Tf m) by lia. destruct (Vf m) as (_ & _ & If); [lia|]. destruct (nv_val fv) as [| | | | |t]; try reflexivity. cbn [ntype]. rewrite (items_obj (exec m) w b its Hb). destruct If as [_ If]. rewrite If.
      replace (updated (beside its) t) with (updated (updated [] (beside its)) t) by (rewrite (update_nil (beside its) []); [reflexivity|apply NoDup_filter_keys, Ndo]). reflexivity. }
    intros m Hm.
    assert (Ta : exec m jtype (CType a) w = (w, Ok (ntype (nv_val fv)))).
    { destruct m as [|m]; [lia|]. cbn [Doc.exec Doc.step]. unfold node_type, mbind. rewrite (node_at_ok _ _ _ Hn), En. cbn [r_schema r_pointer]. rewrite (Rq m), (Tf m) by lia. reflexivity. }
    unfold merged. split; [|split].
    - intros k Hk. destruct k as [|k]; [lia|]. cbn [node_view]. unfold mbind. rewrite (node_at_ok _ _ _ Hn), En, Ta, (RawR m) by lia. destruct (Vf m) as (K & _); [lia|]. specialize (K k ltac:(lia)). destruct fv as [fv fr]. cbn [nv_val] in *.
      destruct fv; try reflexivity; rewrite K; reflexivity.
    - rewrite Ta. cbn [nv_val]. destruct (nv_val fv); reflexivity.
    - cbn [nv_val]. destruct (nv_val fv) as [| | | | |t] eqn:Ef; try exact I. split; [apply NoDup_update, NoDup_filter_keys, Ndo|]. unfold node_items, mbind. rewrite (node_at_ok _ _ _ Hn), En, (RawR m) by lia. reflexivity.
  Qed.
  Lemma viewed_more w n0 n1 a nv : viewed w n0 a nv -> n0 <= n1 -> viewed w n1 a nv.
  Proof. intros V L m Hm. destruct (V m ltac:(lia)) as (A & B & C). split; [intros k Hk; apply A; lia|]. auto. Qed.

  Lemma fields_here G w V f its d : fields auth Lib G w V f its d -> Forall2 (member (stands_for G w)) its (here V f d).
  Proof. unfold here. induction 1 as [|ka kx its d [E S] _ IH]; cbn [map]; constructor; [split; [exact E|exact S]|exact IH]. Qed.
  (** values that are no references *)
  Lemma plain_shown y nv : shows y nv -> nv_ref nv = false -> forall G w a, stands_for G w a y ->
    exists p v, (forall h2, agree G w h2 -> val h2 a p) /\ pview p = Some v /\ rel_view (stands_for G w) (NView v false) nv /\ match v with NObj d => NoDup (dkeys d) | _ => True end.
  Proof.
    intros Sh Nr G w a S. destruct Sh as [V f|V f b|V f z|V f x|V f d|V f s|V f l|V d|V d Nd|? ? ? ? ? ? ? ? ? ? ? ?|? ? ? ? ? ? ? ? ? ? ? ? ?]; try discriminate Nr;
      try (pose proof (stands_leaf _ _ _ _ _ _ _ _ S ltac:(discriminate)) as H).
    - exists PNull, NNull. split; [intros h2 A; specialize (H h2 A); inversion H; subst; assumption|]. split; [reflexivity|]. split; [split; [constructor|reflexivity]|exact I].
    - exists (PBool b), (NBool b). split; [intros h2 A; specialize (H h2 A); inversion H; subst; assumption|]. split; [reflexivity|]. split; [split; [constructor|reflexivity]|exact I].
    - exists (PNum (Dec z 0)), (NNum (Dec z 0)). split; [intros h2 A; specialize (H h2 A); inversion H as [| | |? ? ? Hv E| | | |]; subst; exact Hv|]. split; [reflexivity|]. split; [split; [constructor|reflexivity]|exact I].
    - exists (PNum (frepr x)), (NNum (frepr x)). split; [intros h2 A; specialize (H h2 A); inversion H as [| | | |? ? ? Hv E| | |]; subst; exact Hv|]. split; [reflexivity|]. split; [split; [constructor|reflexivity]|exact I].
    - exists (PNum d), (NNum d). split; [intros h2 A; specialize (H h2 A); inversion H as [| | | | |? ? ? Hv E| |]; subst; exact Hv|]. split; [reflexivity|]. split; [split; [constructor|reflexivity]|exact I].
    - exists (PStr s), (NStr s). split; [intros h2 A; specialize (H h2 A); inversion H; subst; assumption|]. split; [reflexivity|]. split; [split; [constructor|reflexivity]|exact I].
    - destruct (stands_list _ _ _ _ _ _ _ _ S) as (els & Hv & F). exists (PArr els), (NArr els). split; [exact Hv|]. split; [reflexivity|]. split; [|exact I]. split; [|reflexivity]. constructor. clear -F. induction F; cbn [map]; constructor; auto.
    - destruct (stands_obj _ _ _ _ _ _ _ _ S ltac:(discriminate)) as (its & Hv & F). cbv beta iota in F. exists (PObj its), (NObj its). split; [exact Hv|]. split; [reflexivity|]. split; [split; [constructor; apply fields_here, F|reflexivity]|].
      eapply fields_nodup; [exact F|]. destruct S as (_ & _ & D & _). apply distinct_dict, D.
    - destruct (stands_obj _ _ _ _ _ _ _ _ S ltac:(auto)) as (its & Hv & F). cbv beta iota in F. exists (PObj its), (NObj its). split; [exact Hv|]. split; [reflexivity|]. split; [split; [constructor; apply fields_here, F|reflexivity]|].
      eapply fields_nodup; [exact F|]. apply NoDup_ddel. destruct S as (_ & _ & D & _). apply distinct_dict, D.
  Qed.
  Definition views (y : piece) (nv : nview piece) : Prop := forall G w a, state G None w -> stands_for G w a y ->
    exists G1 w1 nv', Runs (CType a) w w1 (Ok (ntype (nv_val nv'))) /\ state G1 None w1 /\ onward Lib G w G1 w1 /\ rel_view (stands_for G1 w1) nv' nv /\
      forall G2 w2, state G2 None w2 -> later G1 w1 G2 w2 -> exists n0, viewed w2 n0 a nv'.
  (** reference nodes to one place: how deep the calls go does not depend on the node *)
  Definition ref_reads_at (G : ghost) (w : world) (e : nat) (p : list pystr) (fv : nview piece) (n0 : nat) : Prop :=
    exists G2 w2 fvv, state G2 None w2 /\ onward Lib G w G2 w2 /\ rel_view (stands_for G2 w2) fvv fv /\
      forall a v b its, (forall h2, agree G w h2 -> val h2 a (PRef (RefData v b e p))) -> (forall h2, agree G w h2 -> val h2 b (PObj its)) -> NoDup (dkeys its) ->
        (forall n, n0 <= n -> exec n jtype (CType a) w = (w2, Ok (ntype (nv_val fvv)))) /\ viewed w2 n0 a (merged its fvv) /\
        forall G3 w3, state G3 None w3 -> later G2 w2 G3 w3 -> exists n3, viewed w3 n3 a (merged its fvv).
  Lemma ref_at V' p y fv : leads auth dig Lib V' p y -> views y fv -> forall G w e, state G None w -> G e = Some V' -> exists n0, ref_reads_at G w e p fv n0.
  Proof.
    intros Le Vy G w e St Ge. destruct (proj1 (proj2 (saying auth dig strx fetch Lib Dig LibOk Fetch)) V' p y Le G w e St Ge) as (G1 & w1 & f & R1 & St1 & La1 & Sf & Rdy & Af1).
    destruct (Vy G1 w1 f St1 Sf) as (G2 & w2 & fvv & R2 & St2 & La2 & Rv & Af2). pose proof (onward_trans _ _ _ _ _ _ _ La1 La2) as La.
    assert (K : forall G3 w3, state G3 None w3 -> later G2 w2 G3 w3 -> exists n3, forall a v b its, (forall h2, agree G w h2 -> val h2 a (PRef (RefData v b e p))) -> (forall h2, agree G w h2 -> val h2 b (PObj its)) -> NoDup (dkeys its) -> viewed w3 n3 a (merged its fvv)).
    { intros G3 w3 St3 La3. pose proof (later_trans _ _ _ _ _ _ La La3) as La03. destruct (Af1 G3 w3 St3 (later_trans _ _ _ _ _ _ La2 La3)) as [nq Rq]. destruct (Af2 G3 w3 St3 La3) as [nv0 Vf].
      destruct (ready_later _ _ _ _ _ _ (later_trans _ _ _ _ _ _ La2 La3) (l_lib _ _ _ _ La1 _ _ Ge) Rdy) as (x & Hx & Rx).
      exists (3 + max nv0 nq). intros a v b its Ha Hb Nd. eapply ref_seen; [apply Ha, (l_agree _ _ _ _ La03), agree_self|apply Hb, (l_agree _ _ _ _ La03), agree_self|exact Nd|exact Hx|exact Rx|exact Rq|exact Vf]. }
    destruct (K G2 w2 St2 (later_refl _ _)) as [n2 K2]. destruct R1 as [m1 R1]. destruct R2 as [m2 R2]. exists (S (max n2 (max m1 m2))), G2, w2, fvv. split; [exact St2|]. split; [exact La|]. split; [exact Rv|].
    intros a v b its Ha Hb Nd. split; [|split].
    - intros n Hn. destruct n as [|n]; [lia|]. pose proof (Ha _ (agree_self G w)) as (nd & Hnd & End). cbn [Doc.exec Doc.step]. unfold node_type, mbind. rewrite (node_at_ok _ _ _ Hnd), End. cbn [r_schema r_pointer]. rewrite R1, R2 by lia. reflexivity.
    - eapply viewed_more; [eapply K2; eassumption|lia].
    - intros G3 w3 St3 La3. destruct (K G3 w3 St3 La3) as [n3 K3]. exists n3. eapply K3; eassumption.
  Qed.
  Lemma merged_type its fv : ntype (nv_val (merged its fv)) = ntype (nv_val fv).
  Proof. unfold merged. cbn [nv_val]. destruct (nv_val fv); reflexivity. Qed.
  Lemma merged_rel G w G2 w2 V its d fvv fv : later G w G2 w2 -> fields auth Lib G w V false its d -> rel_view (stands_for G2 w2) fvv fv ->
    rel_view (stands_for G2 w2) (merged its fvv) (NView (match nv_val fv with NObj tgt => NObj (updated (here V false (beside d)) tgt) | z => z end) true).
  Proof.
    intros La F [Rv _]. unfold merged. split; [|reflexivity]. cbn [nv_val]. destruct Rv as [| | | |l l' Fl|t t' Ft]; constructor; [exact Fl|]. apply updated_rel; [|exact Ft].
    assert (Fb : fields auth Lib G2 w2 V false (beside its) (beside d)).
    { apply forall2_filter; [intros ? ? [-> _]; reflexivity|]. clear -La F. induction F as [|? ? ? ? [E S] _ IH]; constructor; [split; [exact E|eapply stands_later; eassumption]|exact IH]. }
    apply fields_here, Fb.
  Qed.
  Definition ref_view (V : pv) (d : list (pystr * pv)) (fv : nview piece) : nview piece := NView (match nv_val fv with NObj tgt => NObj (updated (here V false (beside d)) tgt) | z => z end) true.
  Lemma shows_cases y nv : shows y nv -> nv_ref nv = false \/
    exists V d t V' p y' fv, y = (V, (false, VDict d)) /\ dget (u "$ref") d = Some (VStr t) /\ names auth Lib V t V' p /\ leads auth dig Lib V' p y' /\ shows y' fv /\ nv = ref_view V d fv.
  Proof.
    destruct 1 as [V f|V f b|V f z|V f x|V f d|V f s|V f l|V d|V d Nd|V d t V' p y tgt b Er Na Le Sy|V d t V' p y z b Er Na Le Sy Nz]; auto; right; exists V, d, t, V', p, y; eexists; (split; [reflexivity|]); (split; [exact Er|]); (split; [exact Na|]); (split; [exact Le|]); (split; [exact Sy|]); [reflexivity|].
    unfold ref_view. cbn [nv_val]. destruct z; try reflexivity. exfalso; eapply Nz; reflexivity.
  Qed.
  Lemma plain_views y nv : shows y nv -> nv_ref nv = false -> views y nv.
  Proof.
    intros Sh Nr G w a St S. destruct (plain_shown y nv Sh Nr G w a S) as (p & v & Hv & Ep & Rv & Nd). exists G, w, (NView v false).
    assert (K : forall G2 w2, later G w G2 w2 -> viewed w2 1 a (NView v false)) by (intros G2 w2 La; eapply viewed_leaf; [apply Hv, (l_agree _ _ _ _ La), agree_self|exact Ep|exact Nd]).
    split; [exists 1; intros n Hn; destruct (K G w (later_refl _ _) n Hn) as (_ & T & _); exact T|]. split; [exact St|]. split; [apply onward_refl|]. split; [exact Rv|]. intros G2 w2 _ La. exists 1. eapply K, La.
  Qed.
  Lemma ref_views V d t V' p y fv : dget (u "$ref") d = Some (VStr t) -> names auth Lib V t V' p -> leads auth dig Lib V' p y -> views y fv -> views (V, (false, VDict d)) (ref_view V d fv).
  Proof.
    intros Er Na Le Vy G w a St S. destruct (stands_ref _ _ _ _ _ _ _ _ S Er) as (s & v & b & e & p' & oits & Gs & De & Hv & Hb & F).
    destruct (dest_names _ _ _ _ _ _ _ _ _ Gs De) as (V2 & Ge & Na2). destruct (names_unique _ _ _ _ _ _ _ _ Na Na2) as [<- <-].
    destruct (ref_at V' p y fv Le Vy G w e St Ge) as (n0 & G2 & w2 & fvv & St2 & La & Rv & K).
    assert (Nd : NoDup (dkeys oits)) by (eapply fields_nodup; [exact F|]; destruct S as (_ & _ & D & _); apply distinct_dict, D).
    destruct (K a v b oits Hv Hb Nd) as (T & _ & Af). exists G2, w2, (merged oits fvv). split; [exists n0; intros n Hn; rewrite merged_type; apply T, Hn|]. split; [exact St2|]. split; [exact La|]. split; [exact (merged_rel _ _ _ _ _ _ _ _ _ La F Rv)|exact Af].
  Qed.
  Lemma shows_views y nv : shows y nv -> views y nv.
  Proof.
    induction 1 as [V f|V f b|V f z|V f x|V f d|V f s|V f l|V d|V d Nd|V d t V' p y tgt b Er Na Le Sy IH|V d t V' p y z b Er Na Le Sy IH Nz]; try (apply plain_views; [constructor; assumption|reflexivity]).
    - exact (ref_views V d t V' p y _ Er Na Le IH).
    - pose proof (ref_views V d t V' p y _ Er Na Le IH) as K. unfold ref_view in K. cbn [nv_val] in K. destruct z; try exact K. exfalso; eapply Nz; reflexivity.
  Qed.
  (** what [node_view] tells in one state, uniformly over the nodes *)
  Lemma node_view_via w w2 a r n k v : hget (w_heap w) a = Some r -> n_val r = PRef v -> (exists r2, hget (w_heap w2) a = Some r2 /\ n_val r2 = PRef v) ->
    forall ty, exec n jtype (CType a) w = (w2, Ok ty) -> exec n jtype (CType a) w2 = (w2, Ok ty) -> node_view (exec n) k a w2 = (w2, OutOfFuel) \/ node_view (exec n) k a w = node_view (exec n) k a w2.
  Proof.
    intros Hr Er (r2 & Hr2 & Er2) ty T1 T2. destruct k as [|k]; [left; reflexivity|right]. cbn [node_view]. unfold mbind. rewrite (node_at_ok _ _ _ Hr), (node_at_ok _ _ _ Hr2), Er, Er2, T1, T2. reflexivity.
  Qed.
  Definition looks (G : ghost) (w : world) (n0 : nat) (y : piece) (nv : nview piece) : Prop := forall a, stands_for G w a y ->
    exists G1 w1 nv', state G1 None w1 /\ onward Lib G w G1 w1 /\ rel_view (stands_for G1 w1) nv' nv /\ forall n k, n0 <= n -> n0 <= k -> node_view (exec n) k a w = (w1, Ok nv').
  Lemma uniform y nv : shows y nv -> forall G w, state G None w -> exists n0, looks G w n0 y nv.
  Proof.
    intros Sh G w St. destruct (shows_cases y nv Sh) as [Nr|(V & d & t & V' & p & y' & fv & -> & Er & Na & Le & Sy & ->)].
    - exists 1. intros a S. destruct (plain_shown y nv Sh Nr G w a S) as (p & v & Hv & Ep & Rv & Nd). exists G, w, (NView v false). split; [exact St|]. split; [apply onward_refl|]. split; [exact Rv|].
      intros n k Hn Hk. apply (viewed_leaf w a p v (Hv _ (agree_self G w)) Ep Nd n Hn). exact Hk.
    - pose proof (shows_views _ _ Sy) as Vy.
      assert (K : forall N, exists n0, forall e, e < N -> G e = Some V' -> ref_reads_at G w e p fv n0).
      { induction N as [|N [n1 IH]]; [exists 0; intros; lia|].
        assert (Mo : forall e n m, ref_reads_at G w e p fv n -> n <= m -> ref_reads_at G w e p fv m).
        { intros e n m (G2 & w2 & fvv & A & B & C & D) Hm. exists G2, w2, fvv. split; [exact A|]. split; [exact B|]. split; [exact C|]. intros a v b its Ha Hb Nd. destruct (D a v b its Ha Hb Nd) as (D1 & D2 & D3). split; [intros; apply D1; lia|]. split; [eapply viewed_more; eassumption|exact D3]. }
        assert (Dc : G N = Some V' \/ G N <> Some V') by (destruct (G N) as [X|]; [destruct (pv_dec X V') as [->|]; [auto|right; congruence]|right; discriminate]).
        destruct Dc as [E|E].
        - destruct (ref_at V' p y' fv Le Vy G w N St E) as [n2 R2]. exists (max n1 n2). intros e He Ge. destruct (Nat.eq_dec e N) as [->|]; [eapply Mo; [exact R2|lia]|eapply Mo; [apply IH; [lia|exact Ge]|lia]].
        - exists n1. intros e He Ge. destruct (Nat.eq_dec e N) as [->|]; [contradiction|apply IH; [lia|exact Ge]]. }
      destruct (K (length (w_schemas w))) as [n0 K0]. exists (S n0). intros a S.
      destruct (stands_ref _ _ _ _ _ _ _ _ S Er) as (s & v & b & e & p' & oits & Gs & De & Hv & Hb & F).
      destruct (dest_names _ _ _ _ _ _ _ _ _ Gs De) as (V2 & Ge & Na2). destruct (names_unique _ _ _ _ _ _ _ _ Na Na2) as [<- <-].
      destruct (K0 e (known_lt auth Lib _ _ _ _ _ St Ge) Ge) as (G2 & w2 & fvv & St2 & La & Rv & K1).
      assert (Nd : NoDup (dkeys oits)) by (eapply fields_nodup; [exact F|]; destruct S as (_ & _ & D & _); apply distinct_dict, D).
      destruct (K1 a v b oits Hv Hb Nd) as (T & Vw & _). exists G2, w2, (merged oits fvv). split; [exact St2|]. split; [exact La|]. split; [exact (merged_rel _ _ _ _ _ _ _ _ _ La F Rv)|].
      intros n k Hn Hk. destruct (Vw n ltac:(lia)) as (V1 & V2 & _). specialize (V1 k ltac:(lia)). pose proof (Hv _ (agree_self G w)) as (r & Hr & Er1). pose proof (Hv _ (l_agree _ _ _ _ La _ (agree_self G2 w2))) as Hr2.
      rewrite merged_type in V2. destruct (node_view_via w w2 a r n k _ Hr Er1 Hr2 _ (T n ltac:(lia)) V2) as [C|C]; congruence.
  Qed.
End Reader.

(** ** Running validation *)
Section Running.
  Variables (auth : pystr -> option authority) (dig : N -> option Z) (strx : heap -> addr -> pystr) (fetch : uri -> res pv).
  Variable Lib : pystr -> option pv.
  Notation exec := (exec auth dig strx fetch).
  Notation Runs := (Runs auth dig strx fetch).
  Notation state := (state auth Lib).
  Notation stands_for := (stands_for auth Lib).
  Notation shows := (shows auth dig Lib).
  Notation peek := (peek auth dig strx fetch).
  Notation looks := (looks auth dig strx fetch Lib).
  Hypothesis Dig : digits_ok dig.

  Section Within.
  Hypothesis LibOk : forall k V, Lib k = Some V -> sound_document auth Lib V.
  Hypothesis Fetch : forall t v k p V, remote auth t v k p -> Lib k = Some V -> fetch v = Ok V.
  Variable (K : list pystr).
  Hypothesis Keys : forall k X, Lib k = Some X -> In k K.
  Variables (V0 : pv) (look : piece -> res (nview piece)) (says : pv -> pystr).
  Hypothesis Look : forall y, within Lib V0 y -> exists nv, look y = Ok nv /\ shows y nv.
  Hypothesis Says : forall h a x, holds h a x -> strx h a = says x.
  Notation within := (within Lib V0).

  (** all the values there are *)
  Definition everything : list piece := flat_map (fun V => map (pair V) (all_parts false V)) (V0 :: flat_map (fun k => match Lib k with Some X => [X] | None => [] end) K).
  Lemma everything_all y : within y -> In y everything.
  Proof.
    intros [Kn P]. unfold everything. apply in_flat_map. exists (fst y). split.
    - destruct Kn as [->|[k Lk]]; [left; reflexivity|right]. apply in_flat_map. exists k. split; [eapply Keys, Lk|]. rewrite Lk. left. reflexivity.
    - apply in_map_iff. exists (snd y). split; [destruct y; reflexivity|apply part_listed, P].
  Qed.
  Lemma looks_more G w n m y nv : looks G w n y nv -> n <= m -> looks G w m y nv.
  Proof. intros L Hm a S. destruct (L a S) as (G1 & w1 & nv' & A & B & C & D). exists G1, w1, nv'. split; [exact A|]. split; [exact B|]. split; [exact C|]. intros. apply D; lia. Qed.
  Lemma look_shows y nv : within y -> look y = Ok nv -> shows y nv.
  Proof. intros W E. destruct (Look y W) as (nv' & E' & S). congruence. Qed.
  Lemma everything_within y : In y everything -> within y.
  Proof.
    unfold everything. intro I. apply in_flat_map in I as (V & IV & I). apply in_map_iff in I as (x & <- & I). split; [|cbn [fst snd]; eapply listed_part; [apply pt_root|exact I]].
    destruct IV as [<-|IV]; [left; reflexivity|right]. apply in_flat_map in IV as (k & _ & IV). exists k. destruct (Lib k) as [X|]; [destruct IV as [<-|[]]; reflexivity|destruct IV].
  Qed.
  Lemma look_all G w : state G None w -> exists n0, 1 <= n0 /\ forall y nv, within y -> look y = Ok nv -> looks G w n0 y nv.
  Proof.
    intro St. assert (H : forall l, (forall y, In y l -> within y) -> exists n0, 1 <= n0 /\ forall y nv, In y l -> look y = Ok nv -> looks G w n0 y nv).
    { induction l as [|y l IH]; intro Wl; [exists 1; split; [lia|]; intros y nv []|]. destruct IH as (n1 & L1 & IH); [intros; apply Wl; right; assumption|]. pose proof (Wl y (or_introl eq_refl)) as W. destruct (Look y W) as (nv & El & Sh).
      destruct (uniform auth dig strx fetch Lib Dig LibOk Fetch y nv Sh G w St) as [n2 L2]. exists (max n1 n2). split; [lia|]. intros z nz [<-|I] Ez; [|eapply looks_more; [exact (IH z nz I Ez)|lia]].
      rewrite El in Ez. injection Ez as <-. eapply looks_more; [exact L2|lia]. }
    destruct (H everything everything_within) as (n0 & L0 & H0). exists n0. split; [exact L0|]. intros y nv W. apply H0, everything_all, W.
  Qed.

  (** ** One start, in a state *)
  Section Start.
    Variables (G : ghost) (w : world) (n0 : nat).
    Hypothesis St : state G None w.
    Hypothesis Ln0 : 1 <= n0.
    Hypothesis All : forall y nv, within y -> look y = Ok nv -> looks G w n0 y nv.
    Definition knows (a : addr) (y : piece) : Prop := stands_for G w a y /\ within y.
    Definition stops (e : exn) : Prop := exists a G1 w1, e = ENeeds a /\ (forall n, n0 <= n -> fst (node_view (exec n) n a w) = w1) /\ state G1 None w1 /\ onward Lib G w G1 w1 /\ progress w < progress w1.
    Lemma stops_signal e : stops e -> exists a, e = ENeeds a.
    Proof. intros (a & _ & _ & -> & _). eauto. Qed.
    Lemma flags_progress w' : flags w = flags w' -> progress w = progress w'.
    Proof.
      unfold flags, progress. intro E. assert (H : forall l m, map s_ready l = map s_ready m -> length l = length m /\ length (filter s_ready l) = length (filter s_ready m)).
      { induction l as [|x l IH]; intros [|y m] H; try discriminate; [auto|]. cbn in H. injection H as E1 E2. destruct (IH m E2) as [A B]. cbn. rewrite E1. destruct (s_ready y); cbn; split; congruence. }
      destruct (H _ _ E) as [-> ->]. reflexivity.
    Qed.
    Lemma list_elems y l b : shows y (NView (NArr l) b) -> Forall (fun z : piece => fst (snd z) = true) l.
    Proof.
      intro H. remember (NView (NArr l) b) as nv eqn:E. revert b E. induction H; intros bb E0; try discriminate E0.
      - injection E0 as <- <-. apply Forall_forall. intros z I. apply in_map_iff in I as (x & <- & _). reflexivity.
      - injection E0 as -> <-. eapply IHshows. reflexivity.
    Qed.
    Lemma related_within (v : nval addr) (v' : nval piece) : rel_nval (stands_for G w) v v' -> all_within Lib V0 v' -> rel_nval knows v v'.
    Proof.
      intros R A. destruct R as [| | | |l l' F|d d' F]; constructor; cbn [all_within] in A.
      - induction F as [|a y l l' S F IH]; constructor; inversion A; subst; [split; assumption|auto].
      - induction F as [|a y l l' [E S] F IH]; constructor; inversion A; subst; [split; [assumption|split; assumption]|auto].
    Qed.
    (** what one look at a node gives *)
    Lemma peek_cases a y : knows a y -> exists nv, look y = Ok nv /\ shows y nv /\
      ((exists nv', rel_view knows nv' nv /\ forall n, n0 <= n -> peek n w a = Ok nv') \/ (stops (ENeeds a) /\ forall n, n0 <= n -> peek n w a = Raise (ENeeds a))).
    Proof.
      intros [S W]. destruct (Look y W) as (nv & El & Sh). exists nv. split; [exact El|]. split; [exact Sh|]. destruct (All y nv W El a S) as (G1 & w1 & nv' & St1 & La & Rv & Nv).
      unfold Live.peek. destruct (list_eq_dec Bool.bool_dec (flags w) (flags w1)) as [E|E].
      - left. exists nv'. split.
        + pose proof (flags_progress w1 E) as Ep. destruct (on_same _ _ _ _ _ La) as [[-> ->]|C]; [|lia]. destruct Rv as [Rv Rf]. split; [|exact Rf]. apply related_within; [exact Rv|]. eapply shows_within; eassumption.
        + intros n Hn. rewrite (Nv n n Hn Hn). destruct (list_eq_dec _ _ _); [reflexivity|contradiction].
      - right. split.
        + exists a, G1, w1. split; [reflexivity|]. split; [intros n Hn; rewrite (Nv n n Hn Hn); reflexivity|]. split; [exact St1|]. split; [exact La|]. destruct (on_same _ _ _ _ _ La) as [[-> ->]|C]; [contradiction|exact C].
        + intros n Hn. rewrite (Nv n n Hn Hn). destruct (list_eq_dec _ _ _); [contradiction|reflexivity].
    Qed.
    Definition in_array (a : addr) (y : piece) : Prop := knows a y /\ fst (snd y) = true.
    Lemma array_item a y n : n0 <= n -> in_array a y -> item_str (peek n w) (strx (w_heap w)) a = item_str look (fun y => says (piece_value y)) y.
    Proof.
      intros Hn [[S W] Fy]. destruct (Look y W) as (nv & El & Sh). unfold item_str. rewrite El.
      assert (Nr : nv_ref nv = false) by (destruct (shows_cases auth dig Lib y nv Sh) as [H|(V & d & t & V' & p & y' & fv & -> & _)]; [exact H|discriminate]).
      destruct (plain_shown auth dig Lib y nv Sh Nr G w a S) as (p & v & Hv & Ep & Rv & Nd).
      assert (Pk : peek n w a = Ok (NView v false)).
      { unfold Live.peek. destruct (viewed_leaf auth dig strx fetch w a p v (Hv _ (agree_self G w)) Ep Nd n ltac:(lia)) as (K1 & _). rewrite (K1 n ltac:(lia)). destruct (list_eq_dec _ _ _); [reflexivity|contradiction]. }
      rewrite Pk. assert (Ss : strx (w_heap w) a = says (piece_value y)) by (apply Says; destruct S as (s & _ & _ & H); specialize (H _ (agree_self G w)); rewrite Fy in H; exact H).
      destruct nv as [nv b]. cbn [nv_ref] in Nr. subst b. destruct Rv as [Rv _]. cbn [nv_val] in Rv. destruct Rv; try exact Ss. reflexivity.
    Qed.
    Lemma start_sim E voc fuel n a y v : tame E -> n0 <= n -> knows a y ->
      sim stops eq (schema_validate (peek n w) (strx (w_heap w)) E voc fuel a v) (schema_validate look (fun y => says (piece_value y)) E voc fuel y v).
    Proof.
      intros Te Hn Ka. apply (schema_validate_sim stops stops_signal knows (peek n w) look (strx (w_heap w)) _ E in_array); [| |exact Te|exact Ka].
      - intros b z Kb. destruct (peek_cases b z Kb) as (nv & -> & Sh & [(nv' & Rv & Pk)|[Sp Pk]]); rewrite (Pk n Hn); [apply si_ok|apply si_stop, Sp]. split; [exact Rv|].
        intros l l' El El'. destruct Rv as [Rv _]. rewrite El, El' in Rv. inversion Rv as [| | | |? ? F|]; subst. destruct nv as [nv b0]. cbn [nv_val] in El'. subst nv. pose proof (list_elems _ _ _ Sh) as Fl.
        clear -F Fl. induction F as [|c x l l' Hc F IH]; constructor; inversion Fl; subst; [split; assumption|auto].
      - intros b z Qb. apply array_item; assumption.
    Qed.
    Lemma start_same E voc fuel n a y v : n0 <= n -> knows a y ->
      schema_validate (peek n w) (strx (w_heap w)) E voc fuel a v = schema_validate (peek n0 w) (strx (w_heap w)) E voc fuel a v.
    Proof.
      intros Hn Ka. apply (schema_validate_related (fun b c => b = c /\ exists z, knows b z)); [|intros b c [-> _]; reflexivity|split; [reflexivity|eauto]].
      intros b c [<- (z & Kb)]. destruct (peek_cases b z Kb) as (nv & _ & _ & [(nv' & Rv & Pk)|[_ Pk]]); rewrite (Pk n Hn), (Pk n0 (le_n _)); constructor.
      destruct Rv as [Rv _]. split; [|reflexivity]. destruct nv' as [nv' b']. cbn [nv_val] in *. destruct Rv as [| | | |l l' F|l l' F]; constructor.
      - clear -F. induction F; constructor; eauto.
      - clear -F. induction F as [|? ? ? ? [E S]]; constructor; [split; eauto|assumption].
    Qed.
  End Start.

  (** ** All the starts *)
  Variable N0 : nat.
  Definition stocked (w : world) : Prop := forall j, N0 <= j -> j < length (w_schemas w) -> exists k X, Lib k = Some X /\ dget k (w_store w) = Some j.
  Lemma stocked_length w : stocked w -> length (w_schemas w) <= N0 + length K.
  Proof.
    intro H. assert (B : forall m, N0 + m <= length (w_schemas w) -> exists ks, NoDup ks /\ length ks = m /\ incl ks K /\ forall k, In k ks -> exists j, dget k (w_store w) = Some j /\ j < N0 + m).
    { induction m as [|m IH]; intro L; [exists []; split; [constructor|]; split; [reflexivity|]; split; [intros k []|intros k []]|]. destruct IH as (ks & A1 & A2 & A3 & A4); [lia|].
      destruct (H (N0 + m) ltac:(lia) ltac:(lia)) as (k & X & Lk & Gk). exists (k :: ks). split; [constructor; [|exact A1]|].
      - intro C. destruct (A4 k C) as (j & Gj & Lj). rewrite Gk in Gj. injection Gj as <-. lia.
      - split; [cbn; lia|]. split; [intros z [<-|I]; [eapply Keys, Lk|apply A3, I]|]. intros z [<-|I]; [exists (N0 + m); split; [exact Gk|lia]|]. destruct (A4 z I) as (j & Gj & Lj). exists j. split; [exact Gj|lia]. }
    destruct (Nat.le_gt_cases (length (w_schemas w)) N0) as [L|L]; [lia|]. destruct (B (length (w_schemas w) - N0) ltac:(lia)) as (ks & A1 & A2 & A3 & _). pose proof (NoDup_incl_length A1 A3). lia.
  Qed.
  Lemma stocked_onward G w G1 w1 : onward Lib G w G1 w1 -> stocked w -> stocked w1.
  Proof.
    intros La H j Hj Lj. destruct (Nat.lt_ge_cases j (length (w_schemas w))) as [L|L]; [|exact (on_docs _ _ _ _ _ La j L Lj)]. destruct (H j Hj L) as (k & X & Lk & Gk). exists k, X. split; [exact Lk|]. apply (l_store _ _ _ _ La), Gk.
  Qed.
  Lemma progress_bound w : stocked w -> progress w <= 2 * (N0 + length K).
  Proof. intro H. pose proof (stocked_length w H). unfold progress. assert (length (filter s_ready (w_schemas w)) <= length (w_schemas w)) by (clear; induction (w_schemas w) as [|x l IH]; cbn; [lia|]; destruct (s_ready x); cbn; lia). lia. Qed.
  Lemma live_runs E voc fuel v a y : tame E -> within y -> forall m G w, state G None w -> stands_for G w a y -> stocked w -> 2 * (N0 + length K) <= progress w + m ->
    exists G' w' n0 k0, state G' None w' /\ onward Lib G w G' w' /\ forall n k, n0 <= n -> k0 <= k -> live_validate auth dig strx fetch E voc n fuel k a v w = (w', schema_validate look (fun y => says (piece_value y)) E voc fuel y v).
  Proof.
    intros Te W. induction m as [|m IH]; intros G w St S Sk Bd; (destruct (look_all G w St) as (n0 & Ln & All)); pose proof (start_sim G w n0 Ln All E voc fuel n0 a y v Te (le_n _) (conj S W)) as Si;
      pose proof (fun n Hn => start_same G w n0 Ln All E voc fuel n a y v Hn (conj S W)) as Sa.
    - exists G, w, n0, 1. split; [exact St|]. split; [apply onward_refl|]. intros n k Hn Hk. destruct k as [|k]; [lia|]. cbn [live_validate]. rewrite (Sa n Hn). destruct Si as [? ? ->|e Pe| |e r (c & G1 & w1 & -> & _ & _ & La & Pw)]; [reflexivity| |reflexivity|].
      + destruct e; try reflexivity. exfalso. eapply Pe. reflexivity.
      + pose proof (progress_bound w1 (stocked_onward _ _ _ _ La Sk)). lia.
    - remember (schema_validate (peek n0 w) (strx (w_heap w)) E voc fuel a v) as r0 eqn:E0. destruct Si as [x ? ->|e Pe| |e r (c & G1 & w1 & -> & Nv & St1 & La & Pw)].
      1-3: exists G, w, n0, 1; (split; [exact St|]); (split; [apply onward_refl|]); intros n k Hn Hk; (destruct k as [|k]; [lia|]); cbn [live_validate]; rewrite (Sa n Hn), <- ?E0; try reflexivity.
      { destruct e; try reflexivity. exfalso. eapply Pe. reflexivity. }
      destruct (IH G1 w1 St1 (stands_later _ _ _ _ _ _ _ _ La S) (stocked_onward _ _ _ _ La Sk) ltac:(lia)) as (G2 & w2 & n1 & k1 & St2 & La2 & H). exists G2, w2, (max n0 n1), (1 + k1). split; [exact St2|]. split; [eapply onward_trans; eassumption|]. intros n k Hn Hk. destruct k as [|k]; [lia|]. cbn [live_validate]. rewrite (Sa n) by lia.
      rewrite (Nv n ltac:(lia)). apply H; lia.
  Qed.
  End Within.


  (** ** C81 *)
  (** every reference leads to something *)
  Definition readable (V : pv) : Prop := forall y, within Lib V y -> exists nv, shows y nv.
  (** [schema.validate(v)] ends in [w'] with [r] *)
  Definition validates_to (E : env) (voc : list akw) (fuel s : nat) (v : pv) (w w' : world) (r : res unit) : Prop :=
    exists n0 k0, forall n k, n0 <= n -> k0 <= k -> live_document auth dig strx fetch E voc n fuel k s v w = (w', r).
  (** histories in which documents are used for validation as well *)
  Inductive usage : desk -> desk -> Prop :=
  | us_none d : usage d d
  | us_act d d1 d2 : usage d d1 -> act auth dig strx fetch (sound_document auth Lib) d1 d2 -> usage d d2
  | us_validate d w D N E voc fuel s V v w' r : usage d (Desk w D N) -> In (s, V) D -> readable V -> tame E -> validates_to E voc fuel s v w w' r -> usage d (Desk w' D N).

  Section With.
  Hypothesis LibOk : forall k V, Lib k = Some V -> sound_document auth Lib V.
  Hypothesis Fetch : forall t v k p V, remote auth t v k p -> Lib k = Some V -> fetch v = Ok V.
  Variable (K : list pystr) (says : pv -> pystr).
  Hypothesis Keys : forall k X, Lib k = Some X -> In k K.
  Hypothesis Says : forall h a x, holds h a x -> strx h a = says x.
  Lemma validates_so G d s V look E voc fuel v : in_order auth Lib G d -> In (s, V) (d_docs d) -> (forall y, within Lib V y -> exists nv, look y = Ok nv /\ shows y nv) -> tame E ->
    exists G' w', in_order auth Lib G' (Desk w' (d_docs d) (d_nodes d)) /\ later G (d_world d) G' w' /\
      validates_to E voc fuel s v (d_world d) w' (schema_validate look (fun y => says (piece_value y)) E voc fuel (V, (false, V)) v).
  Proof.
    intros Od I Lk Te. pose proof Od as (St & Dd & _).
    destruct (load_runs auth dig strx fetch Lib Dig LibOk Fetch s V (d_world d) G St (Dd s V I)) as (w1 & G1 & [m L] & St1 & La & (x & Hx & Rx)).
    pose proof (root_stands auth Lib G1 w1 s V x St1 (l_lib _ _ _ _ La _ _ (Dd s V I)) Hx Rx) as S.
    destruct (live_runs LibOk Fetch K Keys V look says Lk Says (length (w_schemas w1)) E voc fuel v (s_value x) (V, (false, V)) Te) with (m := 2 * (length (w_schemas w1) + length K)) (G := G1) (w := w1) as (G2 & w2 & n0 & k0 & St2 & La2 & H); [|exact St1|exact S|intros j; lia|lia|].
    - split; [left; reflexivity|apply pt_root].
    - exists G2, w2. pose proof (later_trans _ _ _ _ _ _ La La2) as La02. split; [exact (in_order_with auth Lib G d G2 w2 [] Od St2 La02 ltac:(intros a []))|]. split; [exact La02|].
      exists (max m n0), k0. intros n k Hn Hk. unfold live_document, load_n, mbind. rewrite (L n ltac:(lia)), (schema_at_ok _ _ _ Hx). apply H; lia.
  Qed.
  (** what a readable document says, as a function *)
  Lemma readable_look V : readable V -> exists look, forall y, within Lib V y -> exists nv, look y = Ok nv /\ shows y nv.
  Proof.
    intro R. assert (H : forall l, (forall y, In y l -> within Lib V y) -> exists look, forall y, In y l -> exists nv, look y = Ok nv /\ shows y nv).
    { induction l as [|y l IH]; intro Hl; [exists (fun _ => OutOfFuel); intros y []|]. destruct IH as [look IH]; [intros; apply Hl; right; assumption|]. destruct (R y (Hl y (or_introl eq_refl))) as [nv Sh].
      exists (fun z => if piece_same y z then Ok nv else look z). intros z I. destruct (piece_same y z) eqn:E; [apply piece_same_ok in E; subst z; eauto|]. destruct I as [<-|I]; [|exact (IH z I)].
      rewrite (proj2 (piece_same_ok y y) eq_refl) in E. discriminate. }
    destruct (H (everything K V)) as [look Hl]; [apply everything_within|]. exists look. intros y W. apply Hl, everything_all; assumption.
  Qed.
  Lemma validates_det E voc fuel s v w w1 r1 w2 r2 : validates_to E voc fuel s v w w1 r1 -> validates_to E voc fuel s v w w2 r2 -> w1 = w2 /\ r1 = r2.
  Proof. intros (n1 & k1 & A) (n2 & k2 & B). specialize (A (max n1 n2) (max k1 k2) ltac:(lia) ltac:(lia)). rewrite (B (max n1 n2) (max k1 k2)) in A by lia. injection A as <- <-. auto. Qed.
  Lemma usage_in_order d d' : usage d d' -> forall G, in_order auth Lib G d -> exists G', in_order auth Lib G' d' /\ later G (d_world d) G' (d_world d').
  Proof.
    induction 1 as [d|d d1 d2 _ IH Ac|d w D N E voc fuel s V v w' r _ IH I R Te Vt]; intros G Od; [exists G; split; [exact Od|apply later_refl]| |]; destruct (IH G Od) as (G1 & O1 & L1).
    - destruct (act_in_order auth dig strx fetch Lib Dig LibOk Fetch G1 d1 d2 O1 Ac) as (G2 & O2 & L2). exists G2. split; [exact O2|eapply later_trans; eassumption].
    - destruct (readable_look V R) as [look Lk]. destruct (validates_so G1 _ s V look E voc fuel v O1 I Lk Te) as (G2 & w2 & O2 & L2 & V2). cbn [d_docs d_nodes d_world] in *. destruct (validates_det _ _ _ _ _ _ _ _ _ _ Vt V2) as [<- _]. exists G2. split; [exact O2|eapply later_trans; eassumption].
  Qed.
  End With.

  (** After any history, validating with a document is validating with what it and
      the documents it refers to say, wherever validation has to load them. *)
  Theorem C81 w d s V (K : list pystr) look (says : pv -> pystr) : library auth fetch Lib w -> usage (Desk w [] []) d -> In (s, V) (d_docs d) ->
    (forall k X, Lib k = Some X -> In k K) -> (forall y, within Lib V y -> exists nv, look y = Ok nv /\ shows y nv) -> (forall h a x, holds h a x -> strx h a = says x) ->
    forall E voc, tame E -> forall fuel v, exists w', validates_to E voc fuel s v (d_world d) w' (schema_validate look (fun y => says (piece_value y)) E voc fuel (V, (false, V)) v).
  Proof.
    intros [So Fe Em] Hs I Ks Lk Sy E voc Te fuel v. destruct (usage_in_order So Fe K says Ks Sy _ _ Hs _ (start_in_order auth Lib w Em)) as (G & Od & _).
    destruct (validates_so So Fe K says Ks Sy G d s V look E voc fuel v Od I Lk Te) as (G2 & w2 & _ & _ & H). exists w2. exact H.
  Qed.
  (** so it does not depend on what was opened, read and validated before *)
  Theorem C81_history w1 d1 s1 w2 d2 s2 V (K : list pystr) (says : pv -> pystr) :
    library auth fetch Lib w1 -> usage (Desk w1 [] []) d1 -> In (s1, V) (d_docs d1) -> library auth fetch Lib w2 -> usage (Desk w2 [] []) d2 -> In (s2, V) (d_docs d2) ->
    (forall k X, Lib k = Some X -> In k K) -> readable V -> (forall h a x, holds h a x -> strx h a = says x) ->
    forall E voc, tame E -> forall fuel v, exists r w1' w2', validates_to E voc fuel s1 v (d_world d1) w1' r /\ validates_to E voc fuel s2 v (d_world d2) w2' r.
  Proof.
    intros L1 H1 I1 L2 H2 I2 Ks Rd Sy E voc Te fuel v. destruct (readable_look K Ks V Rd) as [look Lk]. destruct (C81 w1 d1 s1 V K look says L1 H1 I1 Ks Lk Sy E voc Te fuel v) as (w1' & A). destruct (C81 w2 d2 s2 V K look says L2 H2 I2 Ks Lk Sy E voc Te fuel v) as (w2' & B). eauto.
  Qed.
End Running.
