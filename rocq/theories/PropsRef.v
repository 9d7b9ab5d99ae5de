(** C46: local references read as their targets. *)
From Verif Require Import PyBase PyBaseFacts PyVal OrderFacts Regex Numbers Uri Pointer PropsPointer Store Validators Heap HeapFacts PropsWrap PropsPlaces PropsUriEx Doc DocMono DocFacts PropsQuery DocLoad PropsLoad DocDocument PropsAnchor.
Local Open Scope nat_scope.
Local Notation length := List.length (only parsing).

(** ** What a document says, read with its references *)
(** A value of the document; [true] when it is inside an array, where nothing is
    followed. *)
Definition item := (bool * pv)%type.
(** What reading gives: an object, known by its members, or another value. *)
Inductive shape := SMembers (look : pystr -> option item) | SValue (z : item).
Definition jtype_of (v : pv) : jtype :=
  match v with VNone => JNull | VBool _ => JBool | VInt _ | VFloat _ | VDec _ => JNum | VStr _ => JStr | VList _ => JArr | VDict _ => JObj end.
Definition under (f : bool) (d : list (pystr * pv)) (k : pystr) : option item := option_map (pair f) (dget k d).

Section Meaning.
  Variables (auth : pystr -> option authority) (dig : N -> option Z) (V : pv).
  Inductive reads : item -> shape -> Prop :=
  | rd_raw d : reads (true, VDict d) (SMembers (under true d))
  | rd_obj d : dget (u "$ref") d = None -> reads (false, VDict d) (SMembers (under false (ddel (u "$anchor") d)))
  | rd_leaf f x : (forall d, x <> VDict d) -> reads (f, x) (SValue (f, x))
  (** the members of the target, and those beside the reference that the target lacks *)
  | rd_ref_obj d t v p y look : dget (u "$ref") d = Some (VStr t) -> local auth t v p -> finds p y -> reads y (SMembers look) ->
      reads (false, VDict d) (SMembers (fun k => match look k with Some z => Some z | None => if str_eqb k (u "$ref") then None else under false d k end))
  | rd_ref_val d t v p y z : dget (u "$ref") d = Some (VStr t) -> local auth t v p -> finds p y -> reads y (SValue z) -> reads (false, VDict d) (SValue z)
  (** what a pointer into the document leads to *)
  with finds : list pystr -> item -> Prop :=
  | fd_anchor name q d : declares V q name -> inside V q (VDict d) -> (forall q', declares V q' name -> q' = q) -> finds [name] (false, VDict d)
  | fd_root : (forall q, ~ declares V q []) -> finds [[]] (false, V)
  | fd_steps p y : p <> [[]] -> (forall k q, p = [k] -> ~ declares V q k) -> steps (false, V) p y -> finds p y
  with steps : item -> list pystr -> item -> Prop :=
  | st_here x : steps x [] x
  | st_member x look k y p z : reads x (SMembers look) -> look k = Some y -> steps y p z -> steps x (k :: p) z
  | st_elem f l k i y p z : means_index dig k (length l) i -> nth_error l i = Some y -> steps (true, y) p z -> steps (f, VList l) (k :: p) z.
  Scheme reads_ind2 := Minimality for reads Sort Prop with finds_ind2 := Minimality for finds Sort Prop with steps_ind2 := Minimality for steps Sort Prop.
  Combined Scheme meaning_ind from reads_ind2, finds_ind2, steps_ind2.
End Meaning.

Lemma dget_forall2 {A B} (R : A -> B -> Prop) (l : list (pystr * A)) (m : list (pystr * B)) k :
  Forall2 (fun ka kx => fst ka = fst kx /\ R (snd ka) (snd kx)) l m ->
  match dget k m with Some y => exists c, dget k l = Some c /\ R c y | None => dget k l = None end.
Proof.
  induction 1 as [|[k1 c] [k2 y] l m [E1 E2] _ IH]; [reflexivity|]. cbn [fst snd dget] in *. subst k2. destruct (str_eqb k k1); [eauto|exact IH].
Qed.
Lemma dget_filter_ne {A} (l : list (pystr * A)) r k : dget k (filter (fun kx => negb (str_eqb (fst kx) r)) l) = if str_eqb k r then None else dget k l.
Proof.
  induction l as [|[k1 x] l IH]; [destruct (str_eqb k r); reflexivity|]. cbn [filter fst dget]. destruct (str_eqb_spec k1 r) as [->|N]; cbn [negb].
  - rewrite IH. destruct (str_eqb k r); reflexivity.
  - cbn [dget]. rewrite IH. destruct (str_eqb_spec k k1) as [->|]; [|reflexivity]. destruct (str_eqb_spec k1 r); [contradiction|reflexivity].
Qed.
(** [dict(a, **b)] *)
Lemma dget_update {A} (b : list (pystr * A)) : NoDup (dkeys b) -> forall a k, dget k (fold_left (fun acc kx => dset (fst kx) (snd kx) acc) b a) = match dget k b with Some x => Some x | None => dget k a end.
Proof.
  unfold dkeys. induction b as [|[k1 x] b IH]; intros Nd a k; [reflexivity|]. cbn [map fst] in Nd. inversion Nd as [|? ? N1 N2]; subst. cbn [fold_left fst snd dget]. rewrite IH by exact N2.
  destruct (str_eqb_spec k k1) as [->|N].
  - destruct (dget k1 b) as [y|] eqn:E; [|apply dget_dset_eq]. exfalso. apply N1. apply dget_In in E. apply (in_map fst) in E. exact E.
  - rewrite dget_dset_neq by exact N. reflexivity.
Qed.
Lemma NoDup_forall2 {A B} (R : A -> B -> Prop) (l : list (pystr * A)) (m : list (pystr * B)) :
  Forall2 (fun ka kx => fst ka = fst kx /\ R (snd ka) (snd kx)) l m -> NoDup (dkeys m) -> NoDup (dkeys l).
Proof.
  intros F. assert (E : dkeys l = dkeys m); [|rewrite E; auto]. unfold dkeys. induction F as [|[k1 c] [k2 y] l m [E1 E2] _ IH]; [reflexivity|]. cbn [map fst] in *. congruence.
Qed.
Lemma NoDup_dset {A} k (x : A) d : NoDup (dkeys d) -> NoDup (dkeys (dset k x d)).
Proof.
  unfold dkeys. induction d as [|[k1 y] d IH]; intro N; cbn [dset map fst] in *; [constructor; [intros []|constructor]|]. inversion N as [|? ? N1 N2]; subst. destruct (str_eqb_spec k k1) as [->|Ne]; cbn [map fst]; constructor; auto.
  intro C. apply N1. clear -C Ne. induction d as [|[k2 z] d IH]; cbn [dset map fst] in *; [destruct C as [C|[]]; congruence|].
  destruct (str_eqb_spec k k2) as [->|]; cbn [map fst] in C; [destruct C as [C|C]; [congruence|right; exact C]|]. destruct C as [C|C]; [left; exact C|right; auto].
Qed.
Lemma NoDup_update {A} (b : list (pystr * A)) : forall a, NoDup (dkeys a) -> NoDup (dkeys (fold_left (fun acc kx => dset (fst kx) (snd kx) acc) b a)).
Proof. induction b as [|[k x] b IH]; intros a N; [exact N|]. apply IH, NoDup_dset, N. Qed.
Lemma NoDup_ddel {A} k (d : list (pystr * A)) : NoDup (dkeys d) -> NoDup (dkeys (ddel k d)).
Proof.
  unfold dkeys. induction d as [|[k1 y] d IH]; intro N; [exact N|]. cbn [ddel map fst] in *. inversion N as [|? ? N1 N2]; subst. destruct (str_eqb k k1); cbn [map fst]; [auto|]. constructor; [|auto].
  intro C. apply N1. clear -C. induction d as [|[k2 z] d IH]; cbn [ddel map fst] in *; [exact C|]. destruct (str_eqb k k2); cbn [map fst] in *; [right; auto|]. destruct C as [C|C]; [left; exact C|right; auto].
Qed.
Lemma NoDup_filter_keys {A} (f : pystr * A -> bool) d : NoDup (dkeys d) -> NoDup (dkeys (filter f d)).
Proof.
  unfold dkeys. induction d as [|[k1 y] d IH]; intro N; [exact N|]. cbn [filter map fst] in *. inversion N as [|? ? N1 N2]; subst. destruct (f (k1, y)); cbn [map fst]; [|auto]. constructor; [|auto].
  intro C. apply N1. apply in_map_iff in C as ([k2 z] & E & I). apply filter_In in I as [I _]. cbn in E. subst k2. apply (in_map fst) in I. exact I.
Qed.

Section Reading.
  Variables (auth : pystr -> option authority) (dig : N -> option Z) (strx : heap -> addr -> pystr) (fetch : uri -> res pv).
  Notation Runs := (Runs auth dig strx fetch).
  Notation ev := (ev auth dig strx fetch).
  Variables (w : world) (s : nat) (V : pv) (x : schema).
  (** the node [a] stands for the value *)
  Definition stands (a : addr) (y : item) : Prop := if fst y then holds (w_heap w) a (snd y) /\ distinct (snd y) else loaded auth (w_heap w) s a (snd y) /\ distinct (snd y).
  (** [b] is at the end of the references from [a] *)
  Inductive target : addr -> addr -> Prop :=
  | t_here a : target a a
  | t_next a b c : Runs (CRaw a) w w (Ok (RNode b)) -> target b c -> target a c.
  (** [node.type], [node.items()], [node[k]] and [k in node] tell the shape *)
  Definition shows (a : addr) (sh : shape) : Prop :=
    match sh with
    | SMembers look => Runs (CType a) w w (Ok JObj) /\ exists its, NoDup (dkeys its) /\ ev (fun rec => node_items rec a) w w (Ok its) /\
        (forall k, Runs (CGet a k) w w (dict_get its k)) /\ (forall k, Runs (CHas a k) w w (Ok (dict_has its k))) /\
        forall k, match look k with Some y => exists c, dget k its = Some c /\ stands c y | None => dget k its = None end
    | SValue z => Runs (CType a) w w (Ok (jtype_of (snd z))) /\ jtype_of (snd z) <> JObj /\ exists b, target a b /\ stands b z
    end.
  Hypothesis Hx : nth_error (w_schemas w) s = Some x.
  Hypothesis Rx : s_ready x = true.
  Hypothesis Lx : loaded auth (w_heap w) s (s_value x) V.
  Hypothesis Dx : distinct V.
  Hypothesis A1 : forall name b, dget name (s_anchors x) = Some b -> exists q d, declares V q name /\ inside V q (VDict d) /\ loaded auth (w_heap w) s b (VDict d).
  Hypothesis A2 : forall name q, declares V q name -> exists b, dget name (s_anchors x) = Some b.

  Lemma holds_type a y : holds (w_heap w) a y -> Runs (CType a) w w (Ok (jtype_of y)).
  Proof. intro H. inversion H as [? v|? ? v|? ? v|? ? ? v|? ? ? v|? ? ? v|? ? els v|? ? its v]; subst; exact (runs_type auth dig strx fetch w a _ v eq_refl). Qed.
  Lemma obj_shows a its look : val (w_heap w) a (PObj its) -> NoDup (dkeys its) ->
    (forall k, match look k with Some y => exists c, dget k its = Some c /\ stands c y | None => dget k its = None end) -> shows a (SMembers look).
  Proof.
    intros Hv Nd H. split; [exact (runs_type auth dig strx fetch w a _ Hv eq_refl)|]. exists its. split; [exact Nd|]. split; [apply ev_pure; intro rec; apply items_obj, Hv|]. split; [intro k; apply runs_get_obj, Hv|]. split; [|exact H].
    intro k. apply ev_step, ev_pure. intro rec. apply has_obj, Hv.
  Qed.
  Lemma distinct_dict d : distinct (VDict d) -> NoDup (dkeys d).
  Proof. intro D. inversion D as [? _ C|?|? N _]; subst; [exfalso; eapply C; reflexivity|exact N]. Qed.
  Lemma distinct_elem l i y : distinct (VList l) -> nth_error l i = Some y -> distinct y.
  Proof. intros D G. inversion D as [? C _|? F|? _]; subst; [exfalso; eapply C; reflexivity|]. rewrite Forall_forall in F. apply F. eapply nth_error_In, G. Qed.
  Lemma dget_ddel_some {A} k k' (d : list (pystr * A)) y : dget k (ddel k' d) = Some y -> NoDup (dkeys d) -> dget k d = Some y.
  Proof. revert y. unfold dkeys. induction d as [|[k1 z] d IH]; intros y G N; [discriminate|]. cbn [ddel map fst dget] in *. inversion N as [|? ? N1 N2]; subst. destruct (str_eqb_spec k' k1) as [->|].
    - destruct (str_eqb_spec k k1) as [->|]; [|exact G]. exfalso. apply N1. apply dget_In in G. apply (in_map fst) in G. exact G.
    - cbn [dget] in G. destruct (str_eqb k k1); [exact G|auto].
  Qed.

  Lemma meaning :
    (forall y sh, reads auth dig V y sh -> forall a, stands a y -> shows a sh) /\
    (forall p y, finds auth dig V p y -> exists b, Runs (CQuery s p) w w (Ok b) /\ stands b y) /\
    (forall y p z, steps auth dig V y p z -> forall a, stands a y -> exists b, ev (fun rec => follow dig rec a p) w w (Ok b) /\ stands b z).
  Proof.
    apply meaning_ind.
    - (* inside an array *)
      intros d a [H D]. cbn [snd fst] in *. inversion H as [| | | | | | |? ? its Hv F]; subst. eapply obj_shows; [exact Hv|eapply NoDup_forall2; [exact F|apply distinct_dict, D]|].
      intro k. pose proof (dget_forall2 _ _ _ k F) as G. unfold under. destruct (dget k d) as [y|] eqn:Ed; cbn [option_map]; [|exact G]. destruct G as (c & G1 & G2). exists c. split; [exact G1|]. split; [exact G2|]. cbn [snd]. eapply distinct_member; eassumption.
    - (* an object *)
      intros d Nr a [H D]. cbn [snd fst] in *. inversion H as [? ? C|? ? its _ Hv F|? ? ? ? ? ? ? C]; subst; [exfalso; eapply C; reflexivity| |congruence].
      eapply obj_shows; [exact Hv|eapply NoDup_forall2; [exact F|apply NoDup_ddel, distinct_dict, D]|].
      intro k. pose proof (dget_forall2 _ _ _ k F) as G. unfold under. destruct (dget k (ddel _ d)) as [y|] eqn:Ed; cbn [option_map]; [|exact G]. destruct G as (c & G1 & G2). exists c. split; [exact G1|]. split; [exact G2|]. cbn [snd].
      eapply distinct_member; [exact D|]. eapply dget_ddel_some; [exact Ed|apply distinct_dict, D].
    - (* a scalar or an array *)
      intros f y Nd a H. assert (H' : holds (w_heap w) a y). { destruct f; [apply H|]. destruct H as [H _]. cbn [snd] in H. inversion H; subst; [assumption| |]; exfalso; eapply Nd; reflexivity. }
      split; [apply holds_type, H'|]. split; [|exists a; split; [constructor|exact H]]. cbn [snd]. destruct y; try discriminate. exfalso. eapply Nd. reflexivity.
    - (* a reference to an object *)
      intros d t v p y look Gr L _ (f & Rq & Sf) _ IHr a [H D]. cbn [snd fst] in *. destruct (IHr f Sf) as (Tf & its & Ndi & If & Gf & Hf & Kf).
      inversion H as [? ? C|? ? ? C|? ? b oits t' v' p' Gr' L' Hv Hb F]; subst; [exfalso; eapply C; reflexivity|congruence|].
      rewrite Gr in Gr'. injection Gr' as <-. assert (v' = v /\ p' = p) as [-> ->]. { destruct L as (M1 & P1 & _). destruct L' as (M2 & P2 & _). rewrite M1 in M2. injection M2 as <-. rewrite P1 in P2. injection P2 as <-. auto. }
      set (own' := filter (fun kx => negb (str_eqb (fst kx) (u "$ref"))) oits).
      set (all := fold_left (fun acc kx => dset (fst kx) (snd kx) acc) its (fold_left (fun acc kx => dset (fst kx) (snd kx) acc) own' [])).
      pose proof Hv as (n & Hn & En). pose proof (NoDup_forall2 _ _ _ F (distinct_dict _ D)) as Ndo.
      assert (Raw : ev (fun rec => ref_raw rec a) w w (Ok (RDict all))).
      { unfold ref_raw. eapply ev_known; [apply node_at_ok, Hn|]. rewrite En. cbn [r_schema r_pointer r_node]. eapply ev_known; [apply schema_at_ok, Hx|]. rewrite Rx.
        eapply ev_bind; [exact Rq|]. eapply ev_bind; [exact Tf|]. eapply ev_bind; [apply ev_pure; intro rec; apply items_obj, Hb|]. eapply ev_bind; [exact If|]. apply ev_ret. }
      assert (RawR : Runs (CRaw a) w w (Ok (RDict all))) by (apply ev_step; exact Raw).
      split; [apply ev_step; cbn [Doc.step]; unfold node_type; eapply ev_known; [apply node_at_ok, Hn|]; rewrite En; eapply ev_bind; [exact Rq|exact Tf]|].
      exists all. split; [apply NoDup_update, NoDup_update; constructor|].
      split; [unfold node_items; eapply ev_known; [apply node_at_ok, Hn|]; rewrite En; eapply ev_bind; [exact RawR|apply ev_ret]|].
      split; [intro k; apply ev_step; cbn [Doc.step]; unfold node_get; eapply ev_known; [apply node_at_ok, Hn|]; rewrite En; eapply ev_bind; [exact RawR|apply ev_pure; reflexivity]|].
      split; [intro k; apply ev_step; cbn [Doc.step]; unfold node_has; eapply ev_known; [apply node_at_ok, Hn|]; rewrite En; eapply ev_bind; [exact RawR|apply ev_ret]|].
      intro k. unfold all. rewrite (dget_update its Ndi), (dget_update own') by (apply NoDup_filter_keys, Ndo). unfold own'. rewrite dget_filter_ne. cbn [dget]. specialize (Kf k). pose proof (dget_forall2 _ _ _ k F) as G. unfold under.
      destruct (look k) as [z|]; [destruct Kf as (c & -> & Sc); eauto|]. rewrite Kf. destruct (str_eqb k (u "$ref")); [reflexivity|]. destruct (dget k d) as [z|] eqn:Ed; cbn [option_map]; [|rewrite G; reflexivity].
      destruct G as (c & -> & G2). exists c. split; [reflexivity|]. split; [exact G2|]. cbn [snd]. eapply distinct_member; eassumption.
    - (* a reference to something else *)
      intros d t v p y z Gr L _ (f & Rq & Sf) _ IHr a [H D]. cbn [snd fst] in *. destruct (IHr f Sf) as (Tf & Nf & b' & Tb & Sb).
      inversion H as [? ? C|? ? ? C|? ? b oits t' v' p' Gr' L' Hv Hb F]; subst; [exfalso; eapply C; reflexivity|congruence|].
      rewrite Gr in Gr'. injection Gr' as <-. assert (v' = v /\ p' = p) as [-> ->]. { destruct L as (M1 & P1 & _). destruct L' as (M2 & P2 & _). rewrite M1 in M2. injection M2 as <-. rewrite P1 in P2. injection P2 as <-. auto. }
      pose proof Hv as (n & Hn & En).
      split; [apply ev_step; cbn [Doc.step]; unfold node_type; eapply ev_known; [apply node_at_ok, Hn|]; rewrite En; eapply ev_bind; [exact Rq|exact Tf]|]. split; [exact Nf|]. exists b'. split; [|exact Sb].
      eapply t_next; [|exact Tb]. apply ev_step. cbn [Doc.step]. unfold ref_raw. eapply ev_known; [apply node_at_ok, Hn|]. rewrite En. cbn [r_schema r_pointer r_node]. eapply ev_known; [apply schema_at_ok, Hx|]. rewrite Rx.
      eapply ev_bind; [exact Rq|]. eapply ev_bind; [exact Tf|]. destruct (jtype_of (snd z)); try (apply ev_ret). congruence.
    - (* an anchor *)
      intros name q d Dq Iq Un. destruct (A2 _ _ Dq) as [b G]. destruct (A1 _ _ G) as (q' & d' & Dq' & Iq' & Lb). pose proof (Un _ Dq') as ->. pose proof (inside_unique _ _ _ Iq _ Iq') as E. injection E as ->.
      exists b. split; [|split; [exact Lb|exact (inside_distinct _ _ _ Iq Dx)]].
      apply ev_step. cbn [Doc.step]. unfold query. eapply ev_bind; [apply ev_pure, (load_ready w _ x Hx Rx)|]. eapply ev_known; [apply schema_at_ok, Hx|]. rewrite G. apply ev_ret.
    - (* the root *)
      intro Na. exists (s_value x). split; [|split; [exact Lx|exact Dx]].
      assert (G : dget [] (s_anchors x) = None). { destruct (dget [] (s_anchors x)) as [b|] eqn:G; [|reflexivity]. destruct (A1 _ _ G) as (q & d & Dq & _). destruct (Na _ Dq). }
      apply ev_step. cbn [Doc.step]. unfold query. eapply ev_bind; [apply ev_pure, (load_ready w _ x Hx Rx)|]. eapply ev_known; [apply schema_at_ok, Hx|]. rewrite G. apply ev_ret.
    - (* steps from the root *)
      intros p y Np Na _ IH. destruct (IH (s_value x)) as (b & R & Sb); [split; [exact Lx|exact Dx]|]. exists b. split; [|exact Sb].
      apply ev_step. cbn [Doc.step]. unfold query. eapply ev_bind; [apply ev_pure, (load_ready w _ x Hx Rx)|]. eapply ev_known; [apply schema_at_ok, Hx|].
      destruct p as [|k [|k' p]]; [exact R| |exact R]. destruct (dget k (s_anchors x)) as [c|] eqn:G; [destruct (A1 _ _ G) as (q & d & Dq & _); destruct (Na _ _ eq_refl Dq)|].
      destruct (str_eqb_spec k []) as [->|]; [destruct (Np eq_refl)|exact R].
    - intros y a H. exists a. split; [apply follow_nil|exact H].
    - (* into an object *)
      intros y look k y' p z _ IHr Lk _ IHs a H. destruct (IHr a H) as (Ta & its & _ & _ & Ga & _ & Ka). specialize (Ka k). rewrite Lk in Ka. destruct Ka as (c & Gc & Sc). destruct (IHs c Sc) as (b & R & Sb). exists b. split; [|exact Sb].
      cbn [follow]. eapply ev_bind; [exact Ta|]. eapply ev_bind; [|exact R]. specialize (Ga (KS k)). cbn [dict_get] in Ga. rewrite Gc in Ga. exact Ga.
    - (* into an array *)
      intros f l k i y p z Mi Gi _ IHs a H. assert (H' : holds (w_heap w) a (VList l) /\ distinct (VList l)). { destruct f; [exact H|]. destruct H as [H D]. cbn [snd] in *. split; [|exact D]. inversion H; subst; assumption. }
      destruct H' as [H' D]. inversion H' as [| | | | | |? ? els Hv F|]; subst. destruct (Forall2_nth (fun y c => holds (w_heap w) c y) l els i y) as (c & Gc & Hc); [clear -F; induction F; constructor; auto|exact Gi|].
      destruct (IHs c) as (b & R & Sb); [split; [exact Hc|cbn [snd]; eapply distinct_elem; eassumption]|]. exists b. split; [|exact Sb].
      assert (El : length els = length l) by (clear -F; induction F; cbn; congruence). destruct (py_int dig k) as [zz|] eqn:Ez; [|destruct Mi as (_ & [C|C]); congruence].
      eapply follow_arr; [exact Hv|exact Ez| |exact R]. apply (index_spec dig els k zz Ez). exists i. rewrite El. auto.
  Qed.

  (** A reference and its target, node by node: same type, and the members are
      the target's, with those beside the reference that the target lacks. *)
  Definition reads_as (a c : addr) (d : list (pystr * pv)) : Prop :=
    (forall ty, Runs (CType c) w w (Ok ty) -> Runs (CType a) w w (Ok ty)) /\
    (forall its, NoDup (dkeys its) -> Runs (CType c) w w (Ok JObj) -> ev (fun rec => node_items rec c) w w (Ok its) ->
       exists its', ev (fun rec => node_items rec a) w w (Ok its') /\ (forall k, Runs (CGet a k) w w (dict_get its' k)) /\ (forall k, Runs (CHas a k) w w (Ok (dict_has its' k))) /\
       forall k, match dget k its with
                 | Some m => dget k its' = Some m
                 | None => if str_eqb k (u "$ref") then dget k its' = None
                           else match dget k d with Some z => exists m, dget k its' = Some m /\ stands m (false, z) | None => dget k its' = None end
                 end).
  Lemma ref_reads a d t v p c : stands a (false, VDict d) -> dget (u "$ref") d = Some (VStr t) -> local auth t v p -> Runs (CQuery s p) w w (Ok c) -> reads_as a c d.
  Proof.
    intros [H D] Gr L Rq. cbn [fst snd] in *. inversion H as [? ? C|? ? ? C|? ? b oits t' v' p' Gr' L' Hv Hb F]; subst; [exfalso; eapply C; reflexivity|congruence|].
    rewrite Gr in Gr'. injection Gr' as <-. assert (v' = v /\ p' = p) as [-> ->]. { destruct L as (M1 & P1 & _). destruct L' as (M2 & P2 & _). rewrite M1 in M2. injection M2 as <-. rewrite P1 in P2. injection P2 as <-. auto. }
    pose proof Hv as (n & Hn & En). pose proof (NoDup_forall2 _ _ _ F (distinct_dict _ D)) as Ndo. split.
    - intros ty Tc. apply ev_step; cbn [Doc.step]; unfold node_type; eapply ev_known; [apply node_at_ok, Hn|]; rewrite En; eapply ev_bind; [exact Rq|exact Tc].
    - intros its Ndi Tf If. set (own' := filter (fun kx => negb (str_eqb (fst kx) (u "$ref"))) oits).
      set (all := fold_left (fun acc kx => dset (fst kx) (snd kx) acc) its (fold_left (fun acc kx => dset (fst kx) (snd kx) acc) own' [])).
      assert (RawR : Runs (CRaw a) w w (Ok (RDict all))).
      { apply ev_step. cbn [Doc.step]. unfold ref_raw. eapply ev_known; [apply node_at_ok, Hn|]. rewrite En. cbn [r_schema r_pointer r_node]. eapply ev_known; [apply schema_at_ok, Hx|]. rewrite Rx.
        eapply ev_bind; [exact Rq|]. eapply ev_bind; [exact Tf|]. eapply ev_bind; [apply ev_pure; intro rec; apply items_obj, Hb|]. eapply ev_bind; [exact If|]. apply ev_ret. }
      exists all. split; [unfold node_items; eapply ev_known; [apply node_at_ok, Hn|]; rewrite En; eapply ev_bind; [exact RawR|apply ev_ret]|].
      split; [intro k; apply ev_step; cbn [Doc.step]; unfold node_get; eapply ev_known; [apply node_at_ok, Hn|]; rewrite En; eapply ev_bind; [exact RawR|apply ev_pure; reflexivity]|].
      split; [intro k; apply ev_step; cbn [Doc.step]; unfold node_has; eapply ev_known; [apply node_at_ok, Hn|]; rewrite En; eapply ev_bind; [exact RawR|apply ev_ret]|].
      intro k. unfold all. rewrite (dget_update its Ndi), (dget_update own') by (apply NoDup_filter_keys, Ndo). unfold own'. rewrite dget_filter_ne. cbn [dget]. pose proof (dget_forall2 _ _ _ k F) as G.
      destruct (dget k its) as [z|]; [reflexivity|]. destruct (str_eqb k (u "$ref")); [reflexivity|]. destruct (dget k d) as [z|] eqn:Ed; [|rewrite G; reflexivity].
      destruct G as (m & -> & G2). exists m. split; [reflexivity|]. split; [exact G2|]. cbn [snd]. eapply distinct_member; eassumption.
  Qed.
End Reading.

Lemma ev_once {A} auth dig strx fetch (m : (forall A, call A -> M A) -> M A) w w' r n : (forall f g, below f g -> mle (m f) (m g)) ->
  m (exec auth dig strx fetch n) w = (w', r) -> r <> OutOfFuel -> ev auth dig strx fetch m w w' r.
Proof. intros Mm H Hr. exists n. intros k Hk. rewrite <- H. apply (Mm _ _ (below_le auth dig strx fetch n k Hk)). rewrite H. exact Hr. Qed.

Section C46.
  Variables (auth : pystr -> option authority) (dig : N -> option Z) (strx : heap -> addr -> pystr) (fetch : uri -> res pv).
  Notation Runs := (Runs auth dig strx fetch).
  Notation ev := (ev auth dig strx fetch).

  Lemma ready_document w V s w0 : fit_document auth V -> opened w V s w0 -> exists w' x, ev (fun rec => load rec s) w0 w' (Ok tt) /\
    nth_error (w_schemas w') s = Some x /\ s_ready x = true /\ loaded auth (w_heap w') s (s_value x) V /\ distinct V /\
    (forall name b, dget name (s_anchors x) = Some b -> exists q d, declares V q name /\ inside V q (VDict d) /\ loaded auth (w_heap w') s b (VDict d)) /\
    (forall name q, declares V q name -> exists b, dget name (s_anchors x) = Some b).
  Proof.
    intros ((d0 & ->) & Ds & Ft) O. destruct (opened_dict _ _ _ _ O) as (Es & Est & Ess & Eh).
    destruct (fit_plan auth (id_of (VDict d0)) (VDict d0) (length (w_heap w)) [] Ft) as [l Pl].
    destruct (load_document auth dig strx fetch w d0 s w0 l O Pl) as (w' & x' & L & Hx' & Rx' & Vx' & Ld & Sl & Fr & (ss & Efold & Ess') & Kp).
    assert (Hs : nth_error (w_schemas w0) s = Some (fresh (length (w_heap w)) core)) by (rewrite Ess, Es, nth_error_app2, Nat.sub_diag by lia; reflexivity).
    assert (An : forall name, (exists b, In (DAnchor name b) l /\ dget name (s_anchors x') = Some b) \/ ((forall b, ~ In (DAnchor name b) l) /\ dget name (s_anchors x') = None)).
    { intro name. destruct (done_anchor s name l (w_schemas w0, w_store w0) _ Hs) as (x1 & Hx1 & An). rewrite Efold in Hx1. cbn [fst] in Hx1.
      assert (Ex : s_anchors x' = s_anchors x1). { rewrite Ess', nth_upd, Nat.eqb_refl, Hx1 in Hx'. cbn in Hx'. injection Hx' as <-. reflexivity. }
      rewrite Ex. exact An. }
    exists w', x'. do 4 (split; [assumption|]). split; [exact Ds|]. split.
    - intros name b G. destruct (An name) as [(b' & Ib & Gb)|(_ & C)]; [|congruence]. rewrite G in Gb. injection Gb as <-.
      apply (plan_anchors auth _ name b _ Ds _ _ _ Pl) in Ib as (q & d & Sp & Nd & Ad). pose proof (spot_inside _ _ _ _ _ Sp) as Id. exists q, d. split; [exists d; auto|]. split; [exact Id|]. exact (Kp q b d Sp Nd).
    - intros name q (d & I & N & A). destruct (An name) as [(b & _ & G)|(C & _)]; [eauto|]. exfalso. destruct (inside_spot _ _ _ I (length (w_heap w))) as [b Sb]. apply (C b). apply (plan_anchors auth _ name b _ Ds _ _ _ Pl). exists q, d. auto.
  Qed.

  (** C46, for every reference whose target can be found, through any chain of
      references, anchors and arrays *)
  Theorem C46_exact w V s w0 : fit_document auth V -> opened w V s w0 ->
    exists w', ev (fun rec => load rec s) w0 w' (Ok tt) /\
      (forall p y, finds auth dig V p y -> exists b, Runs (CQuery s p) w' w' (Ok b) /\ stands auth w' s b y) /\
      (forall b y sh, stands auth w' s b y -> reads auth dig V y sh -> shows auth dig strx fetch w' s b sh) /\
      (forall a c d t v p, stands auth w' s a (false, VDict d) -> dget (u "$ref") d = Some (VStr t) -> local auth t v p -> Runs (CQuery s p) w' w' (Ok c) -> reads_as auth dig strx fetch w' s a c d).
  Proof.
    intros Ft O. destruct (ready_document w V s w0 Ft O) as (w' & x & L & Hx & Rx & Lx & Dx & A1 & A2). exists w'. split; [exact L|].
    destruct (meaning auth dig strx fetch w' s V x Hx Rx Lx Dx A1 A2) as (M1 & M2 & M3). split; [exact M2|]. split; [intros b y sh Sb R; exact (M1 y sh R b Sb)|].
    intros. eapply ref_reads; eauto.
  Qed.

  (** A location reached without passing a reference, and not hidden by the name
      of an anchor. *)
  Inductive plainly : item -> list pystr -> item -> Prop :=
  | pl_here y : plainly y [] y
  | pl_member f d k y p z : (f = true \/ (dget (u "$ref") d = None /\ k <> u "$anchor")) -> dget k d = Some y -> plainly (f, y) p z -> plainly (f, VDict d) (k :: p) z
  | pl_elem f l i y p z : nth_error l i = Some y -> plainly (true, y) p z -> plainly (f, VList l) (nat_str i :: p) z.
  Definition location (V : pv) (p : list pystr) (y : item) : Prop := p <> [[]] /\ (forall k q, p = [k] -> ~ declares V q k) /\ plainly (false, V) p y.
  (** neither a reference nor an anchor *)
  Definition plain_item (y : item) : Prop := match y with (false, VDict e) => dget (u "$ref") e = None | _ => True end.

  Lemma dget_ddel_neq {A} k k' (d : list (pystr * A)) : k <> k' -> dget k (ddel k' d) = dget k d.
  Proof. intro N. induction d as [|[k1 y] d IH]; [reflexivity|]. cbn [ddel dget]. destruct (str_eqb_spec k' k1) as [->|]; cbn [dget]; [destruct (str_eqb_spec k k1); [contradiction|reflexivity]|rewrite IH; reflexivity]. Qed.
  Lemma plainly_steps V y p z : digits_ok dig -> plainly y p z -> steps auth dig V y p z.
  Proof.
    intro X. induction 1 as [y|f d k y p z Hf G _ IH|f l i y p z G _ IH]; [constructor| |].
    - destruct f.
      + eapply st_member; [apply rd_raw| |exact IH]. unfold under. rewrite G. reflexivity.
      + destruct Hf as [C|[N Nk]]; [discriminate|]. eapply st_member; [apply rd_obj, N| |exact IH]. unfold under. rewrite dget_ddel_neq, G by exact Nk. reflexivity.
    - eapply st_elem; [|exact G|exact IH]. split; [apply nth_error_Some; congruence|]. left. apply py_int_nat, X.
  Qed.
  Lemma location_finds V p y : digits_ok dig -> location V p y -> finds auth dig V p y.
  Proof. intros X (N & A & P). apply fd_steps; [exact N|exact A|]. apply plainly_steps; assumption. Qed.

  (** C46: an object with a reference to a location of the document has the type
      of the target; if that is an object, its members are the target's plus the
      siblings that the target does not define. *)
  Theorem C46_partial w V s w0 q d t v p y : digits_ok dig -> fit_document auth V -> opened w V s w0 ->
    location V q (false, VDict d) -> dget (u "$ref") d = Some (VStr t) -> local auth t v p -> location V p y -> plain_item y ->
    exists w' a c, ev (fun rec => load rec s) w0 w' (Ok tt) /\ Runs (CQuery s q) w' w' (Ok a) /\ Runs (CQuery s p) w' w' (Ok c) /\ stands auth w' s c y /\
      Runs (CType c) w' w' (Ok (jtype_of (snd y))) /\ Runs (CType a) w' w' (Ok (jtype_of (snd y))) /\
      forall e, snd y = VDict e -> exists its its', ev (fun rec => node_items rec c) w' w' (Ok its) /\ ev (fun rec => node_items rec a) w' w' (Ok its') /\
        (forall k, Runs (CGet a k) w' w' (dict_get its' k)) /\ (forall k, Runs (CHas a k) w' w' (Ok (dict_has its' k))) /\
        (forall k, dmem k its = dmem k e && (fst y || negb (str_eqb k (u "$anchor")))) /\
        (forall k, match dget k its with
                   | Some m => dget k its' = Some m
                   | None => if str_eqb k (u "$ref") then dget k its' = None
                             else match dget k d with Some z => exists m, dget k its' = Some m /\ stands auth w' s m (false, z) | None => dget k its' = None end
                   end).
  Proof.
    intros X Ft O Lq Gr Lo Lp Py. destruct (C46_exact w V s w0 Ft O) as (w' & L & M1 & M2 & M3).
    destruct (M1 q _ (location_finds V q _ X Lq)) as (a & Ra & Sa). destruct (M1 p _ (location_finds V p _ X Lp)) as (c & Rc & Sc). exists w', a, c.
    do 4 (split; [assumption|]). destruct (M3 a c d t v p Sa Gr Lo Rc) as (T & Mm).
    assert (K : forall e, snd y = VDict e -> reads auth dig V y (SMembers (under (fst y) (if fst y then e else ddel (u "$anchor") e)))).
    { intros e E. destruct y as [[|] y']; cbn [snd fst] in *; subst y'; [apply rd_raw|apply rd_obj; exact Py]. }
    assert (Tc : Runs (CType c) w' w' (Ok (jtype_of (snd y)))).
    { destruct y as [f y']. cbn [snd fst] in *. destruct y' as [| | | | | | |e]; try (refine (proj1 (M2 c _ (SValue (f, _)) Sc _)); apply rd_leaf; discriminate).
      exact (proj1 (M2 c _ _ Sc (K e eq_refl))). }
    split; [exact Tc|]. split; [exact (T _ Tc)|]. intros e E. destruct (M2 c y _ Sc (K e E)) as (Tj & its & Nd & If & _ & _ & Ki).
    destruct (Mm its Nd Tj If) as (its' & Ia & Ga & Ha & Ka). exists its, its'. do 4 (split; [assumption|]). split; [|exact Ka].
    intro k. specialize (Ki k). unfold under, dmem in *. assert (De : NoDup (dkeys e)). { destruct y as [[|] y']; cbn in E; subst y'; destruct Sc as [_ D]; exact (distinct_dict _ D). }
    destruct (fst y) eqn:Ey; cbn [orb].
    - destruct (dget k e); cbn [option_map] in Ki; [destruct Ki as (m & -> & _)|rewrite Ki]; reflexivity.
    - destruct (str_eqb_spec k (u "$anchor")) as [->|Nk]; cbn [negb].
      + rewrite andb_false_r. destruct (dget (u "$anchor") (ddel (u "$anchor") e)) as [z|] eqn:G; [|cbn [option_map] in Ki; rewrite Ki; reflexivity]. exfalso.
        clear -G De. unfold dkeys in De. induction e as [|[k1 y1] e IH]; [discriminate|]. cbn [map fst] in De. inversion De as [|? ? N1 N2]; subst. cbn [ddel] in G. destruct (str_eqb_spec (u "$anchor") k1) as [<-|N].
        * apply N1. apply dget_In in G. apply (in_map fst) in G. exact G.
        * cbn [dget] in G. destruct (str_eqb_spec (u "$anchor") k1); [contradiction|]. auto.
      + rewrite dget_ddel_neq in Ki by exact Nk. destruct (dget k e); cbn [option_map] in Ki; [destruct Ki as (m & -> & _)|rewrite Ki]; reflexivity.
  Qed.
End C46.

(** ** Cases *)
Definition C46_value : pv := VDict [
  (u "a", VDict [(u "$ref", VStr (u "#/defs/x")); (u "title", VStr (u "t")); (u "minimum", VInt 1)]);
  (u "b", VDict [(u "$ref", VStr (u "#/a"))]);
  (u "defs", VDict [(u "x", VDict [(u "minimum", VInt 3); (u "enum", VList [VInt 7])]); (u "n", VInt 5)])].
Example C46_some : fit_document toy C46_value /\ (exists w0, opened (World [] [] []) C46_value 0 w0) /\ digits_ok ex_dig /\
  (exists d t v p e, location C46_value [u "a"] (false, VDict d) /\ dget (u "$ref") d = Some (VStr t) /\ local toy t v p /\ location C46_value p (false, VDict e) /\ plain_item (false, VDict e)).
Proof.
  split; [apply fit_documentb_ok; vm_compute; reflexivity|]. split; [eexists; reflexivity|]. split; [exact ex_dig_ok|].
  assert (Na : forall q k, ~ declares C46_value q k).
  { assert (H : forall v, (fix ok (v : pv) : bool := match v with VDict d => negb (dmem (u "$anchor") d) && forallb (fun kx => ok (snd kx)) d | _ => true end) v = true -> forall q d, inside v q (VDict d) -> dget (u "$anchor") d = None).
    { intros v Hv q d I. remember (VDict d) as y eqn:Ey. revert Hv. induction I as [v|d1 k x p y G _ IH]; intro Hv; subst.
      - apply andb_prop in Hv as [Hv _]. unfold dmem in Hv. destruct (dget (u "$anchor") d); [discriminate|reflexivity].
      - apply IH; [reflexivity|]. apply andb_prop in Hv as [_ Hv]. rewrite forallb_forall in Hv. apply (Hv (k, x)). apply dget_In, G. }
    intros q k (d & I & _ & A). rewrite (H C46_value eq_refl q d I) in A. discriminate. }
  do 5 eexists. split; [split; [discriminate|split; [intros; apply Na|]]; eapply pl_member; [right; split; [reflexivity|discriminate]|reflexivity|apply pl_here]|].
  split; [reflexivity|]. split; [split; [vm_compute; reflexivity|split; [vm_compute; reflexivity|eexists; split; [vm_compute; reflexivity|reflexivity]]]|].
  split; [split; [discriminate|split; [discriminate|]]; do 2 (eapply pl_member; [right; split; [reflexivity|discriminate]|reflexivity|]); apply pl_here|reflexivity].
Qed.
(** The location [#/name] is hidden by an anchor of that name elsewhere. *)
Definition C46_hidden : pv := VDict [
  (u "name", VDict [(u "type", VStr (u "string"))]);
  (u "x", VDict [(u "$anchor", VStr (u "name"))]);
  (u "r", VDict [(u "$ref", VStr (u "#/name"))])].
Theorem C46_refuted strx fetch : exists V w0 w' q d t v p e a its, fit_document toy V /\ opened (World [] [] []) V 0 w0 /\
  inside V q (VDict d) /\ dget (u "$ref") d = Some (VStr t) /\ local toy t v p /\ inside V p (VDict e) /\ dget (u "$ref") e = None /\
  ev toy ex_dig strx fetch (fun rec => load rec 0) w0 w' (Ok tt) /\ Runs toy ex_dig strx fetch (CQuery 0 q) w' w' (Ok a) /\
  ev toy ex_dig strx fetch (fun rec => node_items rec a) w' w' (Ok its) /\ dmem (u "type") e = true /\ dmem (u "type") its = false.
Proof.
  exists C46_hidden. eexists. eexists. exists [u "r"]. do 7 eexists. split; [apply fit_documentb_ok; vm_compute; reflexivity|]. split; [reflexivity|].
  split; [eapply in_member; [reflexivity|apply in_here]|]. split; [reflexivity|]. split; [split; [vm_compute; reflexivity|split; [vm_compute; reflexivity|eexists; split; [vm_compute; reflexivity|reflexivity]]]|].
  split; [eapply in_member; [reflexivity|apply in_here]|]. split; [reflexivity|].
  split; [apply (ev_once _ _ _ _ (fun rec => load rec 0) _ _ _ 5); [intros; apply mono_load; assumption|vm_compute; reflexivity|discriminate]|].
  split; [apply (Runs_once _ _ _ _ _ _ _ _ 5); [vm_compute; reflexivity|discriminate]|].
  split; [apply (ev_once _ _ _ _ (fun rec => node_items rec _) _ _ _ 5); [intros; apply mono_items; assumption|vm_compute; reflexivity|discriminate]|].
  split; reflexivity.
Qed.
