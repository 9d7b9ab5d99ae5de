(** C102, C103, C104: comparing two wrapped values with one another. *)
From Verif Require Import PyBase PyBaseFacts PyVal Validators OrderFacts Numbers PropsNumber Uri Heap HeapFacts PropsWrap Compare.
From Coq Require Import QArith Lqa.
Local Open Scope nat_scope.
Local Notation length := List.length (only parsing).

(** ** Specification *)
(** equal JSON values: numbers by their exact value (a float's is the one its
    text shows), members in any order *)
Inductive equal : pv -> pv -> Prop :=
| e_null : equal VNone VNone
| e_bool b : equal (VBool b) (VBool b)
| e_str s : equal (VStr s) (VStr s)
| e_num x y p q : number x -> number y -> stands_for (Plain x) p -> stands_for (Plain y) q -> (p == q)%Q -> equal x y
| e_list l m : Forall2 equal l m -> equal (VList l) (VList m)
| e_dict d e : length d = length e ->
    Forall (fun kx => exists y, dget (fst kx) e = Some y /\ equal (snd kx) y) d -> equal (VDict d) (VDict e).
(** a number on the left meets something else, or a bool something else, before
    any difference is found *)
Inductive mismatch : pv -> pv -> Prop :=
| m_num x y : number x -> ~ number y -> mismatch x y
| m_bool b y : (forall c, y <> VBool c) -> mismatch (VBool b) y
| m_list l x l' m y m' : Forall2 equal l m -> length l' = length m' -> mismatch x y -> mismatch (VList (l ++ x :: l')) (VList (m ++ y :: m'))
| m_dict d k x d' e y : length (d ++ (k, x) :: d') = length e ->
    Forall (fun kz => exists y, dget (fst kz) e = Some y /\ equal (snd kz) y) d -> dget k e = Some y -> mismatch x y ->
    mismatch (VDict (d ++ (k, x) :: d')) (VDict e).

(** ** [equal] is an equivalence *)
Lemma number_worth x : number x -> exists q, stands_for (Plain x) q.
Proof. destruct x; cbn; try contradiction; intros _; eexists; constructor. Qed.
Lemma worth_one x p q : stands_for (Plain x) p -> stands_for (Plain x) q -> p = q.
Proof. intros A B. inversion A; subst; inversion B; reflexivity. Qed.
Lemma equal_refl v : distinct v -> equal v v.
Proof.
  induction v as [v Hl Hd|l IH|d IH] using pv_ind_deep; intro D.
  - destruct v as [|b|z|f|d|s|l|d]; try (exfalso; eapply Hl; reflexivity); try (exfalso; eapply Hd; reflexivity); try constructor; eapply e_num; try constructor; try exact I; reflexivity.
  - inversion D as [? Hl|? D'|]; subst; [exfalso; eapply Hl; reflexivity|]. constructor. clear D. induction IH as [|x l Hx _ IHl]; inversion D'; subst; constructor; auto.
  - inversion D as [? ? Hd| |? Hn D']; subst; [exfalso; eapply Hd; reflexivity|]. constructor; [reflexivity|]. rewrite Forall_forall in *. intros [k x] Hin. exists x. split; [apply In_dget; assumption|]. apply IH; auto.
Qed.
Lemma dget_in {A} k (x : A) d : dget k d = Some x -> In (k, x) d.
Proof. induction d as [|[k' x'] d IH]; cbn; [discriminate|]. destruct (str_eqb_spec k k') as [->|]; [intros [= ->]; auto|auto]. Qed.
Lemma dget_key {A} k (d : list (pystr * A)) : In k (dkeys d) -> exists x, dget k d = Some x.
Proof. induction d as [|[k' x'] d IH]; cbn; [tauto|]. destruct (str_eqb_spec k k') as [->|]; [eauto|]. intros [->|]; [congruence|auto]. Qed.
Lemma equal_sym v w : distinct v -> distinct w -> equal v w -> equal w v.
Proof.
  revert w. induction v as [v Hl Hd|l IH|d IH] using pv_ind_deep; intros w D D' H.
  - inversion H; subst; try constructor; try (exfalso; eapply Hl; reflexivity); try (exfalso; eapply Hd; reflexivity). eapply e_num; eauto. symmetry. assumption.
  - inversion H as [| | |? ? ? ? K|? m F|]; subst; [contradiction|]. constructor.
    inversion D as [? K|? Dl|]; subst; [exfalso; eapply K; reflexivity|]. inversion D' as [? K|? Dm|]; subst; [exfalso; eapply K; reflexivity|].
    clear H D D'. induction F; inversion IH; inversion Dl; inversion Dm; subst; constructor; auto.
  - inversion H as [| | |? ? ? ? K|? m F|? e L F]; subst; [contradiction|].
    inversion D as [? ? K| |? Nd Fd]; subst; [exfalso; eapply K; reflexivity|]. inversion D' as [? ? K| |? Ne Fe]; subst; [exfalso; eapply K; reflexivity|].
    constructor; [congruence|]. rewrite Forall_forall in *. intros [k y] Hin. cbn [fst snd].
    assert (S : incl (dkeys d) (dkeys e)).
    { intros k0 Hk. unfold dkeys in Hk. apply in_map_iff in Hk as ([k1 x1] & E & Hx). cbn in E. subst. destruct (F _ Hx) as (y1 & G & _). apply dget_in in G. apply (in_map fst) in G. exact G. }
    assert (S' : incl (dkeys e) (dkeys d)).
    { apply NoDup_length_incl; [exact Nd| |exact S]. unfold dkeys. rewrite !map_length. lia. }
    destruct (dget_key k d) as [x G]. { apply S'. apply (in_map fst) in Hin. exact Hin. }
    exists x. split; [exact G|]. apply dget_in in G. destruct (F _ G) as (y' & G' & E). cbn [fst snd] in *.
    assert (y' = y) as -> by (pose proof (In_dget k y e Ne Hin); congruence).
    apply (IH _ G); cbn; auto. + apply (Fd _ G). + apply (Fe _ Hin).
Qed.
Lemma equal_trans v w x : equal v w -> equal w x -> equal v x.
Proof.
  revert w x. induction v as [v Hl Hd|l IH|d IH] using pv_ind_deep; intros w x H K.
  - inversion H; subst; try exact K; try (exfalso; eapply Hl; reflexivity); try (exfalso; eapply Hd; reflexivity).
    inversion K; subst; try contradiction. eapply e_num; eauto. rewrite H4, (worth_one _ _ _ H3 H7). assumption.
  - inversion H as [| | |? ? ? ? N|? m F|]; subst; [contradiction|]. inversion K as [| | |? ? ? ? N|? m' F'|]; subst; [contradiction|]. constructor.
    clear H K. revert m' F'. induction F; intros m' F'; inversion F'; inversion IH; subst; constructor; eauto.
  - inversion H as [| | |? ? ? ? N|? m F|? e L F]; subst; [contradiction|]. inversion K as [| | |? ? ? ? N| |? g L' F']; subst; [contradiction|]. constructor; [congruence|].
    rewrite Forall_forall in *. intros [k y] Hin. destruct (F _ Hin) as (z & G & E). cbn [fst snd] in *. destruct (F' _ (dget_in _ _ _ G)) as (z' & G' & E'). cbn [fst snd] in *.
    exists z'. split; [exact G'|]. eapply (IH _ Hin); eauto.
Qed.

(** ** What the comparison answers *)
Definition verdict (a b : pv) (r : res bool) : Prop :=
  (r = Ok true /\ equal a b /\ ~ mismatch a b) \/ (r = Ok false /\ ~ equal a b /\ ~ mismatch a b) \/ (r = Raise EType /\ mismatch a b /\ ~ equal a b).

Lemma split_lists {A B} (R : A -> B -> Prop) l1 x l2 m1 y m2 : Forall2 R (l1 ++ x :: l2) (m1 ++ y :: m2) -> length l1 = length m1 -> Forall2 R l1 m1 /\ R x y /\ Forall2 R l2 m2.
Proof.
  revert m1. induction l1 as [|a l1 IH]; intros [|b m1] H L; try discriminate; cbn in H; inversion H; subst; [auto|].
  injection L as L. destruct (IH m1 H5 L) as (K1 & K2 & K3). auto.
Qed.
Lemma mismatch_not_equal a b : mismatch a b -> ~ equal a b.
Proof.
  induction 1 as [x y Hx Hy|b y Hb|l x l' m y m' F L C IH|d k x d' e y L F G C IH]; intro S.
  - inversion S; subst; contradiction.
  - inversion S; subst; try contradiction. eapply Hb; reflexivity.
  - inversion S as [| | |? ? ? ? K|? ? K|]; subst; [contradiction|]. apply split_lists in K as (_ & K & _); [auto|]. apply (Forall2_len F).
  - inversion S as [| | |? ? ? ? K|? ? K|? ? _ K]; subst; [contradiction|]. apply Forall_app in K as [_ K]. inversion K as [|? ? (y' & G' & S') _]; subst. cbn in *. apply IH. congruence.
Qed.
Lemma first_place l1 x l2 m1 y m2 l1' x' l2' m1' y' m2' : l1 ++ x :: l2 = l1' ++ x' :: l2' -> m1 ++ y :: m2 = m1' ++ y' :: m2' ->
  Forall2 equal l1 m1 -> Forall2 equal l1' m1' -> ~ equal x y -> ~ equal x' y' -> x = x' /\ y = y'.
Proof.
  revert m1 l1' m1'. induction l1 as [|a l1 IH]; intros m1 l1' m1' E1 E2 F1 F2 N1 N2.
  - inversion F1; subst. destruct l1' as [|a' l1']; inversion F2; subst; cbn in *; [injection E1 as -> _; injection E2 as -> _; auto|].
    injection E1 as -> _. injection E2 as -> _. contradiction.
  - inversion F1 as [|? b ? m1r]; subst. destruct l1' as [|a' l1']; inversion F2; subst; cbn in *; [injection E1 as -> _; injection E2 as -> _; contradiction|].
    injection E1 as -> E1. injection E2 as -> E2. eapply IH; eauto.
Qed.
Notation found e := (fun kx => exists y, dget (fst kx) e = Some y /\ equal (snd kx) y).
Lemma first_name e d1 k x d2 d1' k' x' d2' y' : Forall (found e) d1 -> d1' ++ (k', x') :: d2' = d1 ++ (k, x) :: d2 -> Forall (found e) d1' ->
  dget k' e = Some y' -> ~ equal x' y' -> (dget k e = None \/ exists y, dget k e = Some y /\ ~ equal x y) -> k' = k /\ x' = x.
Proof.
  intros F EA F' G' N' B. revert d1' EA F'.
  induction F as [|[k1 x1] d1 (y1 & G1 & S1) F IHF]; intros d1' EA F'; destruct d1' as [|[k2 x2] d1']; cbn in EA.
  - injection EA as -> -> _. auto.
  - injection EA as -> -> _. exfalso. inversion F' as [|? ? (y2 & G2 & S2) _]; subst; cbn in *. destruct B as [B|(y & B & N)]; congruence.
  - injection EA as -> -> _. exfalso. cbn in *. congruence.
  - injection EA as -> -> EA. inversion F'; subst. eapply IHF; eauto.
Qed.

(** nesting depth *)
Fixpoint height (v : pv) : nat :=
  match v with
  | VList l => S (list_max (map height l))
  | VDict d => S (list_max (map (fun kx => height (snd kx)) d))
  | _ => 1
  end.
Lemma height_pos v : 1 <= height v.
Proof. destruct v; cbn; lia. Qed.
Lemma height_list l f : height (VList l) <= S f -> Forall (fun x => height x <= f) l.
Proof. cbn. intro H. assert (K : list_max (map height l) <= f) by lia. apply list_max_le in K. rewrite Forall_map in K. exact K. Qed.
Lemma height_dict d f : height (VDict d) <= S f -> Forall (fun kx => height (snd kx) <= f) d.
Proof. cbn. intro H. assert (K : list_max (map (fun kx => height (snd kx)) d) <= f) by lia. apply list_max_le in K. rewrite Forall_map in K. exact K. Qed.

Section Compare.
  Variable h : heap.
  (** two values a node stands for are equal *)
  Lemma holds_equal v : forall a w, distinct v -> holds h a v -> holds h a w -> equal v w.
  Proof.
    assert (U : forall a p q, val h a p -> val h a q -> p = q) by (intros a p q (n & Hn & <-) (m & Hm & <-); congruence).
    induction v as [v Hl Hd|l IH|d IH] using pv_ind_deep; intros a w D H K.
    - assert (N : forall d, val h a (PNum d) -> number v -> (exists p, stands_for (Plain v) p /\ (p == dec_q d)%Q) -> equal v w).
      { intros d Hd' Nv (p & Hp & Ep). inversion K as [? Hw|? c Hw|? s Hw|? z e Hw He|? f e Hw He|? e' e Hw He|? l' els Hw|? d' its Hw]; subst; pose proof (U _ _ _ Hd' Hw) as E; try discriminate; injection E as ->;
        (eapply e_num; [exact Nv|exact I|exact Hp|constructor|]); [|exact Ep|exact Ep]. rewrite Ep. unfold dec_q, scaled. cbn. rewrite Z.mul_1_r. reflexivity. }
      inversion H as [? Hv|? c Hv|? s Hv|? z e Hv He|? f e Hv He|? e' e Hv He|? l' els Hv|? d' its Hv]; subst; try (exfalso; eapply Hl; reflexivity); try (exfalso; eapply Hd; reflexivity).
      + inversion K as [? Hw|? c Hw|? s Hw|? z e Hw He|? f e Hw He|? e' e Hw He|? l' els Hw|? d' its Hw]; subst; pose proof (U _ _ _ Hv Hw) as E; try discriminate. constructor.
      + inversion K as [? Hw|? c' Hw|? s Hw|? z e Hw He|? f e Hw He|? e' e Hw He|? l' els Hw|? d' its Hw]; subst; pose proof (U _ _ _ Hv Hw) as E; try discriminate. injection E as ->. constructor.
      + inversion K as [? Hw|? c' Hw|? s' Hw|? z e Hw He|? f e Hw He|? e' e Hw He|? l' els Hw|? d' its Hw]; subst; pose proof (U _ _ _ Hv Hw) as E; try discriminate. injection E as ->. constructor.
      + eapply N; [exact Hv|exact I|]. eexists; split; [constructor|]. unfold dec_q, scaled. cbn. rewrite Z.mul_1_r. reflexivity.
      + eapply N; [exact Hv|exact I|]. eexists; split; [constructor|reflexivity].
      + eapply N; [exact Hv|exact I|]. eexists; split; [constructor|reflexivity].
    - inversion H as [| | | | | |? ? els Hv F|]; subst. inversion D as [? Dl|? Dl|]; subst; [exfalso; eapply Dl; reflexivity|].
      inversion K as [? Hw|? c' Hw|? s' Hw|? z e Hw He|? f e Hw He|? e' e Hw He|? m els' Hw F'|? d' its Hw]; subst; pose proof (U _ _ _ Hv Hw) as E; try discriminate. injection E as ->. constructor.
      clear H D K Hv Hw. revert m F'. induction F; intros m F'; inversion F'; inversion IH; inversion Dl; subst; constructor; eauto.
    - inversion H as [| | | | | | |? ? its Hv F]; subst. inversion D as [? ? Dl| |? Nd Fd]; subst; [exfalso; eapply Dl; reflexivity|].
      inversion K as [? Hw|? c' Hw|? s' Hw|? z e Hw He|? f e Hw He|? e' e Hw He|? m els' Hw F'|? d' its' Hw F']; subst; pose proof (U _ _ _ Hv Hw) as E; try discriminate. injection E as ->.
      constructor; [apply Forall2_len in F; apply Forall2_len in F'; congruence|].
      clear H D K Hv Hw. revert d' F' Nd. induction F as [|[k n] [k' x] its d [Ek Hx] F IHF]; intros d' F' Nd; inversion F' as [|? [k'' x'] ? d'' [Ek' Hx'] F'']; subst; [constructor|]; cbn [fst snd] in *; subst.
      inversion IH; inversion Fd; inversion Nd; subst. cbn [fst snd] in *. constructor.
      + cbn. exists x'. destruct (str_eqb_spec k'' k''); [|congruence]. split; [reflexivity|]. eauto.
      + match goal with |- Forall _ d => idtac end. assert (R : Forall (found d'') d) by (apply IHF; assumption). rewrite Forall_forall in *. intros [k0 x0] Hin. destruct (R _ Hin) as (y & G & E). exists y. split; [|exact E].
        cbn. destruct (str_eqb_spec k0 k'') as [->|]; [|exact G]. exfalso. apply (in_map fst) in Hin. contradiction.
  Qed.

  Definition right (E : addr -> addr -> res bool) (x y : pv) : Prop := forall a b, holds h a x -> holds h b y -> verdict x y (E a b).
  Lemma right_identical E x y : distinct x -> right E x y -> right (identical_or_equal E) x y.
  Proof.
    intros D R a b Ha Hb. unfold identical_or_equal. destruct (Nat.eqb_spec a b) as [->|]; [|apply R; assumption].
    pose proof (holds_equal x b y D Ha Hb) as K. left. split; [reflexivity|]. split; [exact K|]. intro M. apply mismatch_not_equal in M. contradiction.
  Qed.
  Lemma lists_verdict E l m : Forall distinct l -> (forall x y, In x l -> In y m -> right E x y) -> length l = length m ->
    forall els els', Forall2 (holds h) els l -> Forall2 (holds h) els' m ->
    (lists_equal E els els' = Ok true /\ Forall2 equal l m) \/
    (exists l1 x l2 m1 y m2, l = l1 ++ x :: l2 /\ m = m1 ++ y :: m2 /\ Forall2 equal l1 m1 /\ length l2 = length m2 /\
       ((lists_equal E els els' = Ok false /\ ~ equal x y /\ ~ mismatch x y) \/ (lists_equal E els els' = Raise EType /\ mismatch x y /\ ~ equal x y))).
  Proof.
    intro D. revert m. induction D as [|x l Dx _ IH]; intros [|y m] R L els els' F F'; try discriminate; inversion F as [|a0 ? els0 ? Ha0 F0]; inversion F' as [|b0 ? els1 ? Hb0 F1]; subst.
    - left. split; [reflexivity|constructor].
    - injection L as L. cbn [lists_equal].
      assert (Rx : right (identical_or_equal E) x y) by (apply right_identical; [exact Dx|]; apply R; left; reflexivity).
      destruct (Rx a0 b0) as [(-> & Q & _)|[(-> & N & C)|(-> & C & N)]]; try assumption; cbn [bind].
      + destruct (IH m (fun x y Hx Hy => R x y (or_intror Hx) (or_intror Hy)) L els0 els1) as [[-> G]|(l1 & x' & l2' & m1 & y' & m2 & -> & -> & G & L2 & K)]; try assumption.
        * left. split; [reflexivity|constructor; assumption].
        * right. exists (x :: l1), x', l2', (y :: m1), y', m2. do 2 (split; [reflexivity|]). split; [constructor; assumption|]. split; assumption.
      + right. exists [], x, l, [], y, m. do 2 (split; [reflexivity|]). split; [constructor|]. split; [exact L|]. auto.
      + right. exists [], x, l, [], y, m. do 2 (split; [reflexivity|]). split; [constructor|]. split; [exact L|]. auto.
  Qed.
  Notation members its d := (Forall2 (fun ka kx => fst ka = fst kx /\ holds h (snd ka) (snd kx)) its d).
  Lemma member_of its d k : members its d ->
    match dget k its, dget k d with Some a, Some x => holds h a x /\ In (k, x) d | None, None => True | _, _ => False end.
  Proof.
    induction 1 as [|[k1 a] [k2 x] its d [E H] F IH]; cbn in *; [exact I|]. subst. destruct (str_eqb_spec k k2) as [->|]; [auto|].
    destruct (dget k its), (dget k d); intuition.
  Qed.
  Lemma dicts_verdict E d e : Forall (fun kx => distinct (snd kx)) d -> (forall k x k' y, In (k, x) d -> In (k', y) e -> right E x y) ->
    forall its its', members its d -> members its' e ->
    (dicts_equal E its its' = Ok true /\ Forall (found e) d) \/
    (exists d1 k x d2, d = d1 ++ (k, x) :: d2 /\ Forall (found e) d1 /\
       ((dicts_equal E its its' = Ok false /\ dget k e = None) \/
        (exists y, dget k e = Some y /\ ((dicts_equal E its its' = Ok false /\ ~ equal x y /\ ~ mismatch x y) \/ (dicts_equal E its its' = Raise EType /\ mismatch x y /\ ~ equal x y))))).
  Proof.
    intro D. induction D as [|[k x] d Dx _ IH]; intros R its its' F F'; inversion F as [|[k' a] ? its0 ? [Ek Ha] F0]; subst; cbn [fst snd] in *; subst.
    - left. split; [reflexivity|constructor].
    - cbn [dicts_equal]. pose proof (member_of its' e k F') as G. destruct (dget k its') as [b|], (dget k e) as [y|] eqn:Ge; try contradiction.
      2:{ right. exists [], k, x, d. split; [reflexivity|]. split; [constructor|]. left. auto. }
      destruct G as [Hb Hin].
      assert (Rx : right (identical_or_equal E) x y) by (apply right_identical; [exact Dx|]; eapply R; [left; reflexivity|exact Hin]).
      destruct (Rx a b) as [(-> & Q & _)|[(-> & N & C)|(-> & C & N)]]; try assumption; cbn [bind].
      + destruct (IH (fun k x k' y Hx Hy => R k x k' y (or_intror Hx) Hy) its0 its') as [[-> K]|(d1 & k1 & x1 & d2 & -> & K1 & K)]; try assumption.
        * left. split; [reflexivity|]. constructor; [|exact K]. cbn. eauto.
        * right. exists ((k, x) :: d1), k1, x1, d2. split; [reflexivity|]. split; [|exact K]. constructor; [|exact K1]. cbn. eauto.
      + right. exists [], k, x, d. split; [reflexivity|]. split; [constructor|]. right. exists y. auto.
      + right. exists [], k, x, d. split; [reflexivity|]. split; [constructor|]. right. exists y. auto.
  Qed.

  Lemma holds_num a v : holds h a v -> number v -> exists d q, hview h a = Ok (NView (NNum d) false) /\ stands_for (Plain v) q /\ (dec_q d == q)%Q.
  Proof.
    intros H N. inversion H as [? Hv|? c Hv|? s Hv|? z e Hv He|? f e Hv He|? e' e Hv He|? l' els Hv|? d' its Hv]; subst; try contradiction; rewrite (view_val h _ _ Hv); eexists _, _; (split; [reflexivity|]); (split; [constructor|]); try reflexivity.
    unfold dec_q, scaled. cbn. rewrite Z.mul_1_r. reflexivity.
  Qed.
  Inductive shape : Set := SNull | SBool | SNum | SStr | SArr | SObj.
  Definition shape_of (v : pv) : shape :=
    match v with VNone => SNull | VBool _ => SBool | VInt _ | VFloat _ | VDec _ => SNum | VStr _ => SStr | VList _ => SArr | VDict _ => SObj end.
  (** what a node shows, by the value it stands for *)
  Lemma holds_view a v : holds h a v -> exists x, hview h a = Ok (NView x false) /\
    match v with
    | VNone => x = NNull
    | VBool b => x = NBool b
    | VStr s => x = NStr s
    | VList l => exists els, x = NArr els /\ Forall2 (holds h) els l
    | VDict d => exists its, x = NObj its /\ members its d
    | _ => exists d q, x = NNum d /\ stands_for (Plain v) q /\ (dec_q d == q)%Q
    end.
  Proof.
    intro H. assert (N : number v -> exists x, hview h a = Ok (NView x false) /\ exists d q, x = NNum d /\ stands_for (Plain v) q /\ (dec_q d == q)%Q).
    { intro N. destruct (holds_num a v H N) as (d & q & E & S & Q). eexists. split; [exact E|]. eauto. }
    destruct v; try (apply N; exact I); inversion H as [? Hv|? c Hv|? s' Hv|? z e Hv He|? f e Hv He|? e' e Hv He|? l' els Hv F|? d' its Hv F]; subst; rewrite (view_val h _ _ Hv); eexists; (split; [reflexivity|]); eauto.
  Qed.
  Lemma shape_equal v w : shape_of v <> shape_of w -> ~ equal v w.
  Proof. intros N H. apply N. inversion H; subst; try reflexivity. destruct v; try contradiction; destruct w; try contradiction; reflexivity. Qed.
  Lemma shape_mismatch v w : shape_of v <> shape_of w -> (mismatch v w <-> shape_of v = SNum \/ shape_of v = SBool).
  Proof.
    intro N. split.
    - intro H. inversion H; subst; cbn in *; auto; [|congruence|congruence]. left. destruct v; try contradiction; reflexivity.
    - intros [H|H].
      + apply m_num; [destruct v; try discriminate; exact I|]. intro K. apply N. rewrite H. destruct w; try contradiction; reflexivity.
      + destruct v; try discriminate. apply m_bool. intros c ->. apply N. reflexivity.
  Qed.

  Lemma equal_verdict v : forall n a b w, height v <= n -> distinct v -> holds h a v -> holds h b w -> verdict v w (nodes_equal h n a b).
  Proof.
    induction v as [v Hl Hd|l IH|d IH] using pv_ind_deep; intros n a b w Hn D Ha Hb.
    - destruct n as [|f]; [pose proof (height_pos v); lia|]. cbn [nodes_equal].
      destruct (holds_view _ _ Ha) as (x & Vx & Px). destruct (holds_view _ _ Hb) as (y & Vy & Py). rewrite Vx, Vy. cbn [bind nv_val].
      assert (NUM : number v -> number w -> forall d p e q, x = NNum d -> stands_for (Plain v) p -> (dec_q d == p)%Q -> y = NNum e -> stands_for (Plain w) q -> (dec_q e == q)%Q -> verdict v w (num_eq d (Wrapped e))).
      { intros Nv Nw d p e q _ Sp Ep _ Sq Eq. assert (M : ~ mismatch v w). { intro M. inversion M; subst; try contradiction. }
        assert (Q : equal v w <-> (p == q)%Q). { split; [|intro; eapply e_num; eauto]. intro Q. inversion Q; subst; try contradiction. rewrite (worth_one _ _ _ Sp H1), (worth_one _ _ _ Sq H2). assumption. }
        cbn. unfold cmp_eq. destruct (Qeq_bool (dec_q d) (dec_q e)) eqn:B; [apply Qeq_bool_iff in B; left|right; left]; (split; [reflexivity|]); split; auto; rewrite Q; [lra|].
        intro K. assert (B' : Qeq_bool (dec_q d) (dec_q e) = true) by (apply Qeq_bool_iff; lra). congruence. }
      destruct v as [|b1|z|f1|d1|s| |]; try (exfalso; eapply Hl; reflexivity); try (exfalso; eapply Hd; reflexivity);
        destruct w as [|b2|z'|f2|d2|t|l'|d']; cbn in Px, Py;
        repeat match goal with H : exists _, _ |- _ => destruct H | H : _ /\ _ |- _ => destruct H end; subst; cbn [nodes_equal];
        try (left; split; [reflexivity|]; split; [constructor|]; intro M; inversion M; subst; contradiction);
        try (right; left; split; [reflexivity|]; split; [apply shape_equal; discriminate|]; rewrite shape_mismatch by discriminate; intros [|]; discriminate);
        try (right; right; split; [reflexivity|]; split; [apply shape_mismatch; [discriminate|]; cbn; auto|apply shape_equal; discriminate]);
        try (eapply NUM; eauto; exact I).
      + assert (M : ~ mismatch (VBool b1) (VBool b2)) by (intro M; inversion M; subst; [contradiction|]; eapply H0; reflexivity).
        destruct (Bool.eqb_spec b1 b2) as [->|N]; [left|right; left]; (split; [reflexivity|]); split; auto; [constructor|]. intro Q. inversion Q; subst; contradiction.
      + assert (M : ~ mismatch (VStr s) (VStr t)) by (intro M; inversion M; subst; contradiction).
        destruct (str_eqb_spec s t) as [->|N]; [left|right; left]; (split; [reflexivity|]); split; auto; [constructor|]. intro Q. inversion Q; subst; contradiction.
    - destruct n as [|f]; [cbn in Hn; lia|]. apply height_list in Hn. cbn [nodes_equal].
      destruct (holds_view _ _ Ha) as (x & -> & els & -> & F). destruct (holds_view _ _ Hb) as (y & -> & Py). cbn [bind nv_val].
      inversion D as [? K|? Dl|]; subst; [exfalso; eapply K; reflexivity|].
      destruct w as [|b2|z'|f2|d2|t|m|d']; repeat match goal with H : exists _, _ |- _ => destruct H | H : _ /\ _ |- _ => destruct H end; subst;
        try (right; left; split; [reflexivity|]; split; [apply shape_equal; discriminate|]; rewrite shape_mismatch by discriminate; intros [|]; discriminate).
      rename x into els', H0 into F'. pose proof (Forall2_len F) as L1. pose proof (Forall2_len F') as L2.
      destruct (Nat.eqb_spec (length els) (length els')) as [L|L].
      + assert (R : forall x y, In x l -> In y m -> right (nodes_equal h f) x y).
        { intros x y Hx _ a0 b0 H1 H2. rewrite Forall_forall in *. apply IH; auto. }
        destruct (lists_verdict _ l m Dl R ltac:(congruence) els els' F F') as [[-> K]|(l1 & x & l2 & m1 & y & m2 & -> & -> & G & L' & [(-> & N & C)|(-> & C & N)])].
        * left. split; [reflexivity|]. split; [constructor; exact K|]. intro M. apply mismatch_not_equal in M. apply M. constructor. exact K.
        * right; left. split; [reflexivity|]. split.
          -- intro K. inversion K as [| | |? ? ? ? K'|? ? K'|]; subst; [contradiction|]. apply split_lists in K' as (_ & K' & _); [auto|]. apply (Forall2_len G).
          -- intro K. inversion K as [? ? K'| |l1' x' l2' m1' y' m2' G' LL C' EA EB|]; subst; [contradiction|].
             destruct (first_place _ _ _ _ _ _ _ _ _ _ _ _ EA EB G' G (mismatch_not_equal _ _ C') N) as [-> ->]. contradiction.
        * right; right. split; [reflexivity|]. assert (K : mismatch (VList (l1 ++ x :: l2)) (VList (m1 ++ y :: m2))) by (apply m_list; assumption).
          split; [exact K|apply mismatch_not_equal, K].
      + right; left. split; [reflexivity|]. split; intro K.
        * inversion K as [| | |? ? ? ? K'|? ? K'|]; subst; [contradiction|]. apply Forall2_len in K'. congruence.
        * inversion K as [? ? K'| |l1' x' l2' m1' y' m2' G' LL C' EA EB|]; subst; [contradiction|]. apply Forall2_len in G'. rewrite !app_length in *. cbn in *. lia.
    - destruct n as [|f]; [cbn in Hn; lia|]. apply height_dict in Hn. cbn [nodes_equal].
      destruct (holds_view _ _ Ha) as (x & -> & its & -> & F). destruct (holds_view _ _ Hb) as (y & -> & Py). cbn [bind nv_val].
      inversion D as [? ? K| |? Nd Dd]; subst; [exfalso; eapply K; reflexivity|].
      destruct w as [|b2|z'|f2|d2|t|m|e]; repeat match goal with H : exists _, _ |- _ => destruct H | H : _ /\ _ |- _ => destruct H end; subst;
        try (right; left; split; [reflexivity|]; split; [apply shape_equal; discriminate|]; rewrite shape_mismatch by discriminate; intros [|]; discriminate).
      rename x into its', H0 into F'. pose proof (Forall2_len F) as L1. pose proof (Forall2_len F') as L2.
      destruct (Nat.eqb_spec (length its) (length its')) as [L|L].
      + assert (R : forall k x k' y, In (k, x) d -> In (k', y) e -> right (nodes_equal h f) x y).
        { intros k x k' y Hx _ a0 b0 H1 H2. rewrite Forall_forall in *. apply (IH _ Hx f a0 b0 y (Hn _ Hx) (Dd _ Hx) H1 H2). }
        destruct (dicts_verdict _ d e Dd R its its' F F') as [[-> K]|(d1 & k & x & d2 & -> & G & K0)].
        * left. assert (S : equal (VDict d) (VDict e)) by (constructor; [congruence|exact K]). split; [reflexivity|]. split; [exact S|]. intro M. apply mismatch_not_equal in M. auto.
        * assert (NS : (dget k e = None \/ exists y, dget k e = Some y /\ ~ equal x y) -> ~ equal (VDict (d1 ++ (k, x) :: d2)) (VDict e)).
          { intros B K. inversion K as [| | |? ? ? ? K'|? ? K'|? ? _ K']; subst; [contradiction|]. apply Forall_app in K' as [_ K']. inversion K' as [|? ? (y' & G' & S') _]; subst. cbn in *.
            destruct B as [B|(y & B & N)]; congruence. }
          destruct K0 as [[-> B]|(y & B & [(-> & N & C)|(-> & C & N)])].
          -- right; left. split; [reflexivity|]. split; [apply NS; auto|]. intro K. inversion K as [? ? K'| | |d1' k' x' d2' ? y' L' G' B' C' EA]; subst; [contradiction|].
             destruct (first_name e _ _ _ _ _ _ _ _ _ G EA G' B' (mismatch_not_equal _ _ C')) as [-> ->]; [auto|]. congruence.
          -- right; left. split; [reflexivity|]. split; [apply NS; eauto|]. intro K. inversion K as [? ? K'| | |d1' k' x' d2' ? y' L' G' B' C' EA]; subst; [contradiction|].
             destruct (first_name e _ _ _ _ _ _ _ _ _ G EA G' B' (mismatch_not_equal _ _ C')) as [-> ->]; [eauto|]. apply C. congruence.
          -- right; right. split; [reflexivity|]. split; [|apply NS; eauto]. eapply m_dict; eauto. congruence.
      + right; left. split; [reflexivity|]. split; intro K.
        * inversion K as [| | |? ? ? ? K'|? ? K'|? ? K' _]; subst; [contradiction|]. congruence.
        * inversion K as [? ? K'| | |d1' k' x' d2' ? y' L' G' B' C' EA]; subst; [contradiction|]. congruence.
  Qed.
End Compare.

(** ** C102 *)
(** The call [a == b] ends like this (however deep a stack it is given, if it is
    deep enough). *)
Definition eq_ends (h : heap) (a b : addr) (r : res bool) : Prop := exists N, forall n, N <= n -> nodes_equal h n a b = r.
Theorem C102_exact h a b v w : holds h a v -> holds h b w -> distinct v ->
  (eq_ends h a b (Ok true) <-> equal v w) /\ (eq_ends h a b (Raise EType) <-> mismatch v w) /\
  (eq_ends h a b (Ok false) <-> ~ equal v w /\ ~ mismatch v w).
Proof.
  intros Ha Hb D. pose proof (fun n Hn => equal_verdict h v n a b w Hn D Ha Hb) as V.
  assert (K : forall r, eq_ends h a b r -> exists n, height v <= n /\ nodes_equal h n a b = r).
  { intros r [N H]. exists (Nat.max N (height v)). split; [lia|]. apply H. lia. }
  assert (U : forall (P : Prop) r, P -> (forall n, height v <= n -> P -> nodes_equal h n a b = r) -> eq_ends h a b r) by (intros P r HP HU; exists (height v); auto).
  split; [|split]; split; intro H.
  - destruct (K _ H) as (n & Hn & E). destruct (V n Hn) as [(E' & ? & ?)|[(E' & ? & ?)|(E' & ? & ?)]]; auto; congruence.
  - eapply U; [exact H|]. intros n Hn Q. destruct (V n Hn) as [(E' & ? & ?)|[(E' & ? & ?)|(E' & ? & ?)]]; auto; contradiction.
  - destruct (K _ H) as (n & Hn & E). destruct (V n Hn) as [(E' & ? & ?)|[(E' & ? & ?)|(E' & ? & ?)]]; auto; congruence.
  - eapply U; [exact H|]. intros n Hn Q. destruct (V n Hn) as [(E' & ? & ?)|[(E' & ? & ?)|(E' & ? & ?)]]; auto; contradiction.
  - destruct (K _ H) as (n & Hn & E). destruct (V n Hn) as [(E' & ? & ?)|[(E' & ? & ?)|(E' & ? & ?)]]; auto; congruence.
  - eapply U; [exact H|]. intros n Hn [Q1 Q2]. destruct (V n Hn) as [(E' & ? & ?)|[(E' & ? & ?)|(E' & ? & ?)]]; auto; contradiction.
Qed.
(** As far as it says True, [==] is an equivalence relation *)
Theorem C102_equivalence h a b c v w x : holds h a v -> holds h b w -> holds h c x -> distinct v -> distinct w ->
  eq_ends h a a (Ok true) /\
  (eq_ends h a b (Ok true) -> eq_ends h b a (Ok true)) /\
  (eq_ends h a b (Ok true) -> eq_ends h b c (Ok true) -> eq_ends h a c (Ok true)).
Proof.
  intros Ha Hb Hc D D'. split; [|split].
  - apply (C102_exact h a a v v); auto. apply equal_refl, D.
  - intro H. apply (C102_exact h b a w v); auto. apply equal_sym; auto. apply (C102_exact h a b v w) in H; auto.
  - intros H K. apply (C102_exact h a c v x); auto. apply (C102_exact h a b v w) in H; auto. apply (C102_exact h b c w x) in K; auto. eapply equal_trans; eauto.
Qed.
(** It answers where numbers meet numbers and bools meet bools *)
Lemma same_kinds_mismatch v w : mismatch v w -> ~ same_kinds v w.
Proof.
  induction 1 as [x y Hx Hy|b y Hb|l x l' m y m' F L C IH|d k x d' e y L F G C IH]; intro S.
  - inversion S; subst; contradiction.
  - inversion S; subst; try contradiction. eapply Hb; reflexivity.
  - inversion S as [| | |? ? K|? ? K|]; subst; [contradiction|]. specialize (K _ eq_refl). apply split_lists in K as (_ & K & _); [auto|]. apply (Forall2_len F).
  - inversion S as [| | |? ? K|? ? K|? ? K]; subst; [contradiction|]. specialize (K _ eq_refl). apply Forall_app in K as [_ K]. inversion K as [|? ? K' _]; subst. cbn in *. auto.
Qed.
Theorem C102_total_partial h a b v w : holds h a v -> holds h b w -> distinct v -> same_kinds v w ->
  eq_ends h a b (Ok true) \/ eq_ends h a b (Ok false).
Proof.
  intros Ha Hb D K. destruct (equal_verdict h v (height v) a b w (le_n _) D Ha Hb) as [(_ & Q & _)|[(_ & Q & M)|(_ & M & _)]].
  - left. apply (C102_exact h a b v w); auto.
  - right. apply (C102_exact h a b v w); auto.
  - exfalso. exact (same_kinds_mismatch _ _ M K).
Qed.
(** two new documents of these values *)
Definition pair_of (v w : pv) : addr * addr * heap := let '(a, h) := new [] v in let '(b, h') := new h w in (a, b, h').
(** but comparing fails with TypeError on two values of different kinds, in one
    direction: [null == 1] is False, [1 == null] an error *)
Theorem C102_refuted : exists v w, let '(a, b, h) := pair_of v w in
  holds h a v /\ holds h b w /\ distinct v /\ distinct w /\ eq_ends h a b (Ok false) /\ eq_ends h b a (Raise EType).
Proof.
  exists (VDict [(u "a", VNone)]), (VDict [(u "a", VInt 1)]). cbv zeta. unfold pair_of.
  assert (S : forall v, match v with VList _ | VDict _ => False | _ => True end -> distinct v) by (intros v Hv; apply d_scalar; intros ? ->; exact Hv).
  assert (D : forall v, match v with VList _ | VDict _ => False | _ => True end -> distinct (VDict [(u "a", v)])).
  { intros v Hv. apply d_dict; [repeat constructor; cbn; tauto|]. constructor; [apply S, Hv|constructor]. }
  destruct (new [] (VDict [(u "a", VNone)])) as [a h] eqn:E1. destruct (new h (VDict [(u "a", VInt 1)])) as [b h'] eqn:E2.
  vm_compute in E1. injection E1 as <- <-. vm_compute in E2. injection E2 as <- <-.
  assert (Ha : holds [Node (PObj [(u "a", 1)]) None []; Node PNull (Some 0) (u "a"); Node (PObj [(u "a", 3)]) None []; Node (PNum (Dec 1 0)) (Some 2) (u "a")] 0 (VDict [(u "a", VNone)])).
  { eapply h_dict; [eexists; split; reflexivity|]. repeat constructor. eexists; split; reflexivity. }
  assert (Hb : holds [Node (PObj [(u "a", 1)]) None []; Node PNull (Some 0) (u "a"); Node (PObj [(u "a", 3)]) None []; Node (PNum (Dec 1 0)) (Some 2) (u "a")] 2 (VDict [(u "a", VInt 1)])).
  { eapply h_dict; [eexists; split; reflexivity|]. repeat constructor. eapply h_int; [eexists; split; reflexivity|reflexivity]. }
  split; [exact Ha|]. split; [exact Hb|]. split; [apply D, I|]. split; [apply D, I|]. split.
  - exists 2. intros [|[|n]] Hn; try lia. reflexivity.
  - exists 2. intros [|[|n]] Hn; try lia. reflexivity.
Qed.
(** the members may come in another order, and [1.0] is [1] *)
Example C102_some : let '(a, b, h) := pair_of (VDict [(u "a", VList [VInt 1; VBool true]); (u "b", VNone)])
                                             (VDict [(u "b", VNone); (u "a", VList [VDec (Dec 10 (-1)); VBool true])]) in
  nodes_equal h 3 a b = Ok true /\ nodes_equal h 3 b a = Ok true /\
  let '(a, b, h) := pair_of (VList [VStr (u "x"); VInt 1]) (VList [VStr (u "y"); VNone]) in nodes_equal h 3 a b = Ok false.
Proof. vm_compute. auto. Qed.

(** ** C103 *)
(** ** Specification of the order *)
(** [s] comes before [t] by code points *)
Definition text_before (s t : pystr) : Prop :=
  (exists c w, t = s ++ c :: w) \/ (exists p c d s' t', s = p ++ c :: s' /\ t = p ++ d :: t' /\ (c < d)%N).
(** [ranks v w Lt]: [v] comes before [w], [Eq]: neither does, [Gt]: [w] comes
    before [v]; no [ranks v w c] at all: they cannot be ordered *)
Inductive ranks : pv -> pv -> comparison -> Prop :=
| r_num x y p q : number x -> number y -> stands_for (Plain x) p -> stands_for (Plain y) q -> ranks x y (p ?= q)%Q
| r_bool b : ranks (VBool b) (VBool b) Eq
| r_false : ranks (VBool false) (VBool true) Lt
| r_true : ranks (VBool true) (VBool false) Gt
| r_bool_num b y p q : stands_for (Plain (VBool b)) p -> number y -> stands_for (Plain y) q -> ranks (VBool b) y (p ?= q)%Q
| r_text s : ranks (VStr s) (VStr s) Eq
| r_text_lt s t : text_before s t -> ranks (VStr s) (VStr t) Lt
| r_text_gt s t : text_before t s -> ranks (VStr s) (VStr t) Gt
| r_list l m c : ranks_list l m c -> ranks (VList l) (VList m) c
(** lists: the first elements that differ decide *)
with ranks_list : list pv -> list pv -> comparison -> Prop :=
| rl_nil : ranks_list [] [] Eq
| rl_short y m : ranks_list [] (y :: m) Lt
| rl_long x l : ranks_list (x :: l) [] Gt
| rl_same x y l m c : equal x y -> ranks_list l m c -> ranks_list (x :: l) (y :: m) c
| rl_diff x y l m c : ~ equal x y -> ~ mismatch x y -> ranks x y c -> ranks_list (x :: l) (y :: m) c.

Lemma text_compare_spec s t : match text_compare s t with Eq => s = t | Lt => text_before s t | Gt => text_before t s end.
Proof.
  revert t. induction s as [|c s IH]; intros [|d t]; cbn; [reflexivity|left; exists d, t; reflexivity|left; exists c, s; reflexivity|].
  assert (L : forall c d s t, (c < d)%N -> text_before (c :: s) (d :: t)) by (intros c0 d0 s0 t0 Hc; right; exists [], c0, d0, s0, t0; auto).
  assert (C : forall c s t, text_before s t -> text_before (c :: s) (c :: t)).
  { intros c0 s0 t0 [(e & w & ->)|(p & e & f & s1 & t1 & -> & -> & Hl)]; [left; exists e, w; reflexivity|right; exists (c0 :: p), e, f, s1, t1; auto]. }
  destruct (N.compare_spec c d) as [->|Hc|Hc]; auto. specialize (IH t). destruct (text_compare s t); auto. congruence.
Qed.
Lemma text_before_compare s t : text_before s t -> text_compare s t = Lt /\ text_compare t s = Gt.
Proof.
  intros [(c & w & ->)|(p & c & d & s' & t' & -> & -> & Hl)].
  - induction s as [|x s IH]; cbn; [auto|]. rewrite N.compare_refl. exact IH.
  - induction p as [|x p IH]; cbn; [|rewrite N.compare_refl; exact IH].
    assert (N.compare c d = Lt) as -> by (apply N.compare_lt_iff; exact Hl). assert (N.compare d c = Gt) as -> by (apply N.compare_gt_iff; exact Hl). auto.
Qed.
Lemma text_ranks s t c : ranks (VStr s) (VStr t) c <-> text_compare s t = c.
Proof.
  split.
  - intro H. inversion H; subst; try contradiction.
    + pose proof (text_compare_spec t t) as K. destruct (text_compare t t) eqn:E; [reflexivity|apply text_before_compare in K as [_ K]; congruence|apply text_before_compare in K as [K _]; congruence].
    + apply text_before_compare. assumption.
    + apply text_before_compare. assumption.
  - intros <-. pose proof (text_compare_spec s t) as K. destruct (text_compare s t); [subst; apply r_text|apply r_text_lt, K|apply r_text_gt, K].
Qed.

Lemma ranks_unique v : forall w c c', ranks v w c -> ranks v w c' -> c = c'.
Proof.
  induction v as [v Hl Hd|l IH|d IH] using pv_ind_deep; intros w c c' H K.
  - inversion H; subst; try (exfalso; eapply Hl; reflexivity);
      try (match goal with K : ranks (VStr _) _ _ |- _ => apply text_ranks in H; apply text_ranks in K; congruence end);
      inversion K; subst; try contradiction; try reflexivity;
      repeat match goal with A : stands_for ?x ?p, B : stands_for ?x ?q |- _ => lazymatch p with q => fail | _ => rewrite (worth_one _ _ _ A B) in *; clear A end end; reflexivity.
  - inversion H as [| | | | | | | |? m ? R]; subst; try contradiction. inversion K as [| | | | | | | |? ? ? R']; subst; try contradiction. clear H K.
    revert m c c' R R'. induction IH as [|x l Hx _ IHl]; intros m c c' R R'; inversion R; subst; inversion R'; subst; try reflexivity; try contradiction; eauto.
  - inversion H; subst; try contradiction.
Qed.
Lemma num_order_spec o d e : num_order o d (Wrapped e) = Ok (by_order o (dec_q d ?= dec_q e)%Q).
Proof.
  destruct o; cbn; f_equal; unfold cmp_lt, cmp_le, cmp_gt, cmp_ge;
    repeat match goal with |- context [Qle_bool ?a ?b] => let E := fresh in destruct (Qle_bool a b) eqn:E; [apply Qle_bool_iff in E|apply Qle_bool_false in E] end;
    destruct (Qcompare_spec (dec_q d) (dec_q e)); cbn; try reflexivity; exfalso; lra.
Qed.
Lemma worth_bool b p : stands_for (Plain (VBool b)) p -> p = inject_Z (bool_z b).
Proof. intro H. inversion H; reflexivity. Qed.

Section Order.
  Variable h : heap.
  Definition ordered_like (o : Compare.order) (v w : pv) (r : res bool) : Prop :=
    (exists c, ranks v w c /\ r = Ok (by_order o c)) \/ ((forall c, ~ ranks v w c) /\ r = Raise EType).
  Lemma lists_order n o l : Forall (fun x => height x <= n) l -> Forall distinct l ->
    Forall (fun x => forall n o a b w, height x <= n -> distinct x -> holds h a x -> holds h b w -> ordered_like o x w (nodes_ordered h n o a b)) l ->
    forall m els els', Forall2 (holds h) els l -> Forall2 (holds h) els' m ->
    ordered_like o (VList l) (VList m) (lists_ordered (nodes_equal h n) (nodes_ordered h n o) (by_order o) els els').
  Proof.
    intros Hn D IH. induction l as [|x l IHl]; intros m els els' F F'; inversion F as [|a0 ? els0 ? Ha F0]; subst; inversion F' as [|b0 y els1 m0 Hb F1]; subst.
    - left. exists Eq. split; [constructor; constructor|reflexivity].
    - left. exists Lt. split; [constructor; constructor|reflexivity].
    - left. exists Gt. split; [constructor; constructor|reflexivity].
    - inversion Hn; inversion D; inversion IH; subst. cbn [lists_ordered].
      assert (R : right h (identical_or_equal (nodes_equal h n)) x y).
      { apply right_identical; [assumption|]. intros a1 b1 H H'. apply equal_verdict; assumption. }
      destruct (R a0 b0 Ha Hb) as [(-> & Q & M)|[(-> & Q & M)|(-> & M & Q)]]; cbn [bind].
      + destruct (IHl ltac:(assumption) ltac:(assumption) ltac:(assumption) m0 els0 els1 F0 F1) as [(c & Rc & ->)|(Nc & ->)].
        * left. exists c. split; [|reflexivity]. inversion Rc; subst; [contradiction|]. constructor. apply rl_same; assumption.
        * right. split; [|reflexivity]. intros c Rc. apply (Nc c). inversion Rc as [| | | | | | | |? ? ? K]; subst; [contradiction|]. constructor. inversion K; subst; [assumption|contradiction].
      + match goal with H : forall n o a b w, _ |- _ => destruct (H n o a0 b0 y ltac:(assumption) ltac:(assumption) Ha Hb) as [(c & Rc & ->)|(Nc & ->)] end.
        * left. exists c. split; [|reflexivity]. constructor. apply rl_diff; assumption.
        * right. split; [|reflexivity]. intros c Rc. apply (Nc c). inversion Rc as [| | | | | | | |? ? ? K]; subst; [contradiction|]. inversion K; subst; [contradiction|assumption].
      + right. split; [|reflexivity]. intros c Rc. inversion Rc as [| | | | | | | |? ? ? K]; subst; [contradiction|]. inversion K; subst; contradiction.
  Qed.
  Lemma order_verdict v : forall n o a b w, height v <= n -> distinct v -> holds h a v -> holds h b w -> ordered_like o v w (nodes_ordered h n o a b).
  Proof.
    induction v as [v Hl Hd|l IH|d IH] using pv_ind_deep; intros n o a b w Hn D Ha Hb.
    - destruct n as [|f]; [pose proof (height_pos v); lia|]. cbn [nodes_ordered].
      destruct (holds_view _ _ _ Ha) as (x & -> & Px). destruct (holds_view _ _ _ Hb) as (y & -> & Py). cbn [bind nv_val].
      destruct v as [|b1|z|f1|d1|s| |]; try (exfalso; eapply Hl; reflexivity); try (exfalso; eapply Hd; reflexivity);
        destruct w as [|b2|z'|f2|d2|t|l'|d']; cbn in Px, Py;
        repeat match goal with H : exists _, _ |- _ => destruct H | H : _ /\ _ |- _ => destruct H end; subst; cbn [nodes_ordered];
        try (right; split; [|reflexivity]; intros c K; inversion K; subst; contradiction);
        try (left; eexists; split; [eapply r_num; [exact I|exact I|eassumption|eassumption]|]; rewrite num_order_spec; do 2 f_equal; apply Qcompare_comp; assumption);
        try (left; eexists; split; [eapply (r_bool_num b1 _ (inject_Z (bool_z b1))); [destruct b1; constructor|exact I|eassumption]|]; do 2 f_equal; apply Qcompare_comp; [reflexivity|assumption]).
      + left. exists (Z.compare (bool_z b1) (bool_z b2)). split; [|reflexivity]. destruct b1, b2; constructor.
      + left. eexists. split; [apply text_ranks; reflexivity|reflexivity].
    - destruct n as [|f]; [cbn in Hn; lia|]. apply height_list in Hn. cbn [nodes_ordered].
      destruct (holds_view _ _ _ Ha) as (x & -> & els & -> & F). destruct (holds_view _ _ _ Hb) as (y & -> & Py). cbn [bind nv_val].
      inversion D as [? K|? Dl|]; subst; [exfalso; eapply K; reflexivity|].
      destruct w as [|b2|z'|f2|d2|t|m|d']; repeat match goal with H : exists _, _ |- _ => destruct H | H : _ /\ _ |- _ => destruct H end; subst;
        try (right; split; [|reflexivity]; intros c K; inversion K; subst; contradiction).
      apply lists_order; assumption.
    - destruct n as [|f]; [cbn in Hn; lia|]. cbn [nodes_ordered].
      destruct (holds_view _ _ _ Ha) as (x & -> & els & -> & F). destruct (holds_view _ _ _ Hb) as (y & -> & Py). cbn [bind nv_val].
      right. split; [intros c K; inversion K; subst; contradiction|].
      destruct w; repeat match goal with H : exists _, _ |- _ => destruct H | H : _ /\ _ |- _ => destruct H end; subst; reflexivity.
  Qed.
End Order.

(** The call [a < b] and the like ends like this. *)
Definition ord_ends (h : heap) (o : Compare.order) (a b : addr) (r : res bool) : Prop := exists N, forall n, N <= n -> nodes_ordered h n o a b = r.
Theorem C103_exact h a b v w : holds h a v -> holds h b w -> distinct v ->
  (ranks v w Lt -> ord_ends h Lower a b (Ok true) /\ ord_ends h AtMost a b (Ok true) /\ ord_ends h Greater a b (Ok false) /\ ord_ends h AtLeast a b (Ok false)) /\
  (ranks v w Eq -> ord_ends h Lower a b (Ok false) /\ ord_ends h AtMost a b (Ok true) /\ ord_ends h Greater a b (Ok false) /\ ord_ends h AtLeast a b (Ok true)) /\
  (ranks v w Gt -> ord_ends h Lower a b (Ok false) /\ ord_ends h AtMost a b (Ok false) /\ ord_ends h Greater a b (Ok true) /\ ord_ends h AtLeast a b (Ok true)) /\
  ((forall c, ~ ranks v w c) -> forall o, ord_ends h o a b (Raise EType)).
Proof.
  intros Ha Hb D. pose proof (fun n o Hn => order_verdict h v n o a b w Hn D Ha Hb) as V.
  assert (K : forall c o, ranks v w c -> ord_ends h o a b (Ok (by_order o c))).
  { intros c o R. exists (height v). intros n Hn. destruct (V n o Hn) as [(c' & R' & ->)|(N & _)]; [rewrite (ranks_unique _ _ _ _ R R'); reflexivity|exfalso; eapply N; eauto]. }
  do 3 (split; [intro R; split; [exact (K _ Lower R)|split; [exact (K _ AtMost R)|split; [exact (K _ Greater R)|exact (K _ AtLeast R)]]]|]). intros N o. exists (height v). intros n Hn. destruct (V n o Hn) as [(c' & R' & _)|(_ & ->)]; [exfalso; eapply N; eauto|reflexivity].
Qed.

(** ** Values of one kind are totally ordered *)
(** numbers, strings, bools, and lists of one of these *)
Inductive kind := KNum | KStr | KBool | KArr (k : kind).
Inductive of_kind : kind -> pv -> Prop :=
| o_num x : number x -> of_kind KNum x
| o_str s : of_kind KStr (VStr s)
| o_bool b : of_kind KBool (VBool b)
| o_arr k l : Forall (of_kind k) l -> of_kind (KArr k) (VList l).

Lemma kind_distinct k : forall v, of_kind k v -> distinct v.
Proof.
  induction k as [| | |k IH]; intros v H; inversion H as [x N|s|b|k' l F]; subst.
  - apply d_scalar; intros ? ->; contradiction.
  - apply d_scalar; intros ? E; discriminate.
  - apply d_scalar; intros ? E; discriminate.
  - apply d_list. eapply Forall_impl; [|exact F]. exact IH.
Qed.
Lemma kind_mismatch k : forall v w, of_kind k v -> of_kind k w -> ~ mismatch v w.
Proof.
  induction k as [| | |k IH]; intros v w H K M; inversion H as [x N|s|b|k' l F]; subst; inversion K as [y N'|t|c|k' m G]; subst.
  - inversion M; subst; contradiction.
  - inversion M; subst; contradiction.
  - inversion M as [| ? ? E| |]; subst; [contradiction|eapply E; reflexivity].
  - inversion M as [| |l1 x l2 m1 y m2 E L M'|]; subst; [contradiction|]. apply Forall_app in F as [_ F]. apply Forall_app in G as [_ G]. inversion F; inversion G; subst. eapply IH; [| |exact M']; assumption.
Qed.
Lemma kind_ranks k : forall v w, of_kind k v -> of_kind k w -> exists c, ranks v w c /\ (c = Eq <-> equal v w).
Proof.
  induction k as [| | |k IH]; intros v w H K; inversion H as [x N|s|b|k' l F]; subst; inversion K as [y N'|t|c|k' m G]; subst.
  - destruct (number_worth _ N) as (p & P). destruct (number_worth _ N') as (q & Q). exists (p ?= q)%Q. split; [apply r_num; assumption|]. split.
    + intro E. apply e_num with p q; try assumption. apply Qeq_alt, E.
    + intro E. apply Qeq_alt. inversion E as [| | |? ? p' q' ? ? P' Q' E'| |]; subst; try contradiction. rewrite (worth_one _ _ _ P P'), (worth_one _ _ _ Q Q'). exact E'.
  - exists (text_compare s t). split; [apply text_ranks; reflexivity|]. pose proof (text_compare_spec s t) as T. split; intro E; [rewrite E in T; subst; constructor|].
    inversion E; subst; [|contradiction]. apply text_ranks, r_text.
  - exists (Z.compare (bool_z b) (bool_z c)). split; [destruct b, c; constructor|]. split; intro E; [destruct b, c; try discriminate; constructor|inversion E; subst; [|contradiction]; apply Z.compare_refl].
  - assert (L : exists c, ranks_list l m c /\ (c = Eq <-> Forall2 equal l m)).
    { clear H K. revert m G. induction F as [|x l Hx F IHl]; intros m G; inversion G as [|y m' Hy G']; subst.
      - exists Eq. repeat constructor.
      - exists Lt. split; [constructor|]. split; [discriminate|intro E; inversion E].
      - exists Gt. split; [constructor|]. split; [discriminate|intro E; inversion E].
      - destruct (IH _ _ Hx Hy) as (c & R & E). destruct c.
        + destruct (IHl _ G') as (c & R' & E'). exists c. split; [apply rl_same; [apply E; reflexivity|exact R']|]. split; intro Q; [constructor; [apply E|apply E']; auto|inversion Q; subst; apply E'; assumption].
        + exists Lt. assert (D : ~ equal x y) by (intro Q; apply E in Q; discriminate). split; [apply rl_diff; [exact D|eapply kind_mismatch; eassumption|exact R]|]. split; [discriminate|intro Q; inversion Q; contradiction].
        + exists Gt. assert (D : ~ equal x y) by (intro Q; apply E in Q; discriminate). split; [apply rl_diff; [exact D|eapply kind_mismatch; eassumption|exact R]|]. split; [discriminate|intro Q; inversion Q; contradiction]. }
    destruct L as (c & R & E). exists c. split; [constructor; exact R|]. rewrite E. split; intro Q; [constructor; exact Q|inversion Q; subst; [contradiction|assumption]].
Qed.
Lemma kind_eq k v w c : of_kind k v -> of_kind k w -> ranks v w c -> (c = Eq <-> equal v w).
Proof. intros H K R. destruct (kind_ranks k v w H K) as (c' & R' & E). rewrite (ranks_unique _ _ _ _ R R'). exact E. Qed.
Lemma kind_equal_sym k v w : of_kind k v -> of_kind k w -> equal v w -> equal w v.
Proof. intros H K. apply equal_sym; eapply kind_distinct; eassumption. Qed.
Lemma kind_flip k : forall v w c, of_kind k v -> of_kind k w -> ranks v w c -> ranks w v (CompOpp c).
Proof.
  induction k as [| | |k IH]; intros v w c H K R; inversion H as [x N|s|b|k' l F]; subst; inversion K as [y N'|t|e|k' m G]; subst.
  - inversion R as [? ? p q ? ? P Q| | | | | | | |]; subst; try contradiction. rewrite Qcompare_antisym. apply r_num; assumption.
  - inversion R; subst; try contradiction; cbn; [apply r_text|apply r_text_gt; assumption|apply r_text_lt; assumption].
  - inversion R; subst; try contradiction; constructor.
  - inversion R as [| | | | | | | |? ? ? L]; subst; try contradiction. constructor. clear H K R.
    revert m c G L. induction F as [|x l Hx F IHl]; intros m c G L; inversion L as [|y m'|x' l'|x' y l' m' c' Q L'|x' y l' m' c' D M L']; subst; [constructor|constructor|constructor| |]; inversion G; subst.
    + apply rl_same; [eapply kind_equal_sym; [| |exact Q]; eassumption|apply IHl; assumption].
    + apply rl_diff; [intro Q; apply D; eapply kind_equal_sym; [| |exact Q]; eassumption|eapply kind_mismatch; eassumption|apply IH; assumption].
Qed.
Lemma kind_chain k : forall v w x c c', of_kind k v -> of_kind k w -> of_kind k x -> ranks v w c -> ranks w x c' ->
  (c = Eq -> ranks v x c') /\ (c' = Eq -> ranks v x c) /\ (c = Lt -> c' = Lt -> ranks v x Lt).
Proof.
  induction k as [| | |k IH]; intros v w x c c' Hv Hw Hx R R'; inversion Hv as [v' N|s|b|k' l F]; subst; inversion Hw as [w' N'|t|e|k' m G]; subst; inversion Hx as [x' N''|r|g|k' j I]; subst.
  - inversion R as [? ? p q ? ? P Q| | | | | | | |]; subst; try contradiction. inversion R' as [? ? q' r ? ? Q' T| | | | | | | |]; subst; try contradiction. rewrite (worth_one _ _ _ Q' Q) in *. clear Q' q'.
    pose proof (r_num v x p r N N'' P T) as Z. repeat split.
    + intro E. apply Qeq_alt in E. rewrite (Qcompare_comp p q E r r (Qeq_refl r)) in Z. exact Z.
    + intro E. apply Qeq_alt in E. rewrite <- (Qcompare_comp p p (Qeq_refl p) q r E) in Z. exact Z.
    + intros E E'. apply Qlt_alt in E. apply Qlt_alt in E'. rewrite (proj1 (Qlt_alt p r)) in Z; [exact Z|lra].
  - apply text_ranks in R. apply text_ranks in R'. subst. pose proof (text_compare_spec s t) as A. pose proof (text_compare_spec t r) as B. repeat split.
    + intro E. rewrite E in A. subst. apply text_ranks. reflexivity.
    + intro E. rewrite E in B. subst. apply text_ranks. reflexivity.
    + intros E E'. clear - E E'. apply text_ranks. revert t r E E'. induction s as [|c s IH]; intros [|d t] [|e r]; cbn; try discriminate; auto.
      destruct (N.compare_spec c d) as [->|C|C]; [|intros _|discriminate].
      * destruct (N.compare_spec d e) as [->|C|C]; [eauto|auto|discriminate].
      * destruct (N.compare_spec d e) as [->|C'|C']; [|intros _|discriminate]; rewrite (proj2 (N.compare_lt_iff c e)) by lia; auto.
  - destruct b, e, g; inversion R; subst; try contradiction; inversion R'; subst; try contradiction; repeat split; try discriminate; intros; try discriminate; constructor.
  - inversion R as [| | | | | | | |? ? ? L]; subst; try contradiction. inversion R' as [| | | | | | | |? ? ? L']; subst; try contradiction.
    assert (Z : (c = Eq -> ranks_list l j c') /\ (c' = Eq -> ranks_list l j c) /\ (c = Lt -> c' = Lt -> ranks_list l j Lt)); [|destruct Z as (Z1 & Z2 & Z3); repeat split; intros; constructor; auto].
    clear Hv Hw Hx R R'. revert m j c c' G I L L'. induction F as [|v l Hv F IHl]; intros m j c c' G I L L'.
    + inversion L as [|w m'| | |]; subst; inversion L' as [|x j'|w' m''|w' x m'' j' d Q T|w' x m'' j' d D M T]; subst; repeat split; intros; try discriminate; constructor.
    + inversion L as [| |v' l'|v' w l' m' d Q T|v' w l' m' d D M T]; subst; inversion L' as [|x j'|w' m''|w' x m'' j' d' Q' T'|w' x m'' j' d' D' M' T']; subst;
        try (repeat split; intros; try discriminate; constructor; fail); inversion G; subst; inversion I; subst.
      * destruct (IHl m' j' c c' ltac:(assumption) ltac:(assumption) T T') as (Z1 & Z2 & Z3). assert (E : equal v x) by (eapply equal_trans; eassumption). repeat split; intros; apply rl_same; auto.
      * assert (R : ranks v w Eq) by (destruct (kind_ranks k v w) as (e & R & E); try assumption; rewrite <- (proj2 E Q) in *; exact R).
        destruct (IH v w x Eq c' ltac:(assumption) ltac:(assumption) ltac:(assumption) R T') as (Z & _). specialize (Z eq_refl).
        assert (N : ~ equal v x) by (intro E; apply D'; eapply equal_trans; [eapply kind_equal_sym; [| |exact Q]; eassumption|exact E]).
        assert (E : c' <> Eq) by (intro E; apply D'; eapply kind_eq; [| |exact T'|exact E]; eassumption).
        repeat split; intros; subst; try contradiction; apply rl_diff; auto; eapply kind_mismatch; eassumption.
      * assert (R : ranks w x Eq) by (destruct (kind_ranks k w x) as (e & R & E); try assumption; rewrite <- (proj2 E Q') in *; exact R).
        destruct (IH v w x c Eq ltac:(assumption) ltac:(assumption) ltac:(assumption) T R) as (_ & Z & _). specialize (Z eq_refl).
        assert (N : ~ equal v x) by (intro E; apply D; eapply equal_trans; [exact E|eapply kind_equal_sym; [| |exact Q']; eassumption]).
        assert (E : c <> Eq) by (intro E; apply D; eapply kind_eq; [| |exact T|exact E]; eassumption).
        repeat split; intros; subst; try contradiction; apply rl_diff; auto; eapply kind_mismatch; eassumption.
      * destruct (IH v w x c c' ltac:(assumption) ltac:(assumption) ltac:(assumption) T T') as (_ & _ & Z).
        assert (E : c <> Eq) by (intro E; apply D; eapply kind_eq; [| |exact T|exact E]; eassumption).
        assert (E' : c' <> Eq) by (intro E'; apply D'; eapply kind_eq; [| |exact T'|exact E']; eassumption).
        repeat split; intros; subst; try contradiction. specialize (Z eq_refl eq_refl). apply rl_diff; [|eapply kind_mismatch; eassumption|exact Z].
        intro Q. eapply (kind_eq k) in Q; [|eassumption|eassumption|exact Z]. discriminate.
Qed.
Lemma ends_one h o a b r r' : ord_ends h o a b r -> ord_ends h o a b r' -> r = r'.
Proof. intros (N & H) (N' & H'). rewrite <- (H (Nat.max N N')), <- (H' (Nat.max N N')) by lia. reflexivity. Qed.
Lemma eq_ends_one h a b r r' : eq_ends h a b r -> eq_ends h a b r' -> r = r'.
Proof. intros (N & H) (N' & H'). rewrite <- (H (Nat.max N N')), <- (H' (Nat.max N N')) by lia. reflexivity. Qed.
Lemma kind_ends h k a b v w c : holds h a v -> holds h b w -> of_kind k v -> of_kind k w -> ranks v w c ->
  (forall o, ord_ends h o a b (Ok (by_order o c))) /\ eq_ends h a b (Ok (match c with Eq => true | _ => false end)).
Proof.
  intros Ha Hb H K R. pose proof (kind_distinct _ _ H) as D. destruct (C103_exact h a b v w Ha Hb D) as (L & E & G & _). split.
  - intro o. destruct c; [destruct (E R) as (? & ? & ? & ?)|destruct (L R) as (? & ? & ? & ?)|destruct (G R) as (? & ? & ? & ?)]; destruct o; assumption.
  - pose proof (kind_eq k v w c H K R) as Q. destruct (C102_exact h a b v w Ha Hb D) as (Q1 & _ & Q2). destruct c; [apply Q1, Q; reflexivity|apply Q2|apply Q2]; (split; [intro X; apply Q in X; discriminate|eapply kind_mismatch; eassumption]).
Qed.
Theorem C103_total_partial h k a b v w : holds h a v -> holds h b w -> of_kind k v -> of_kind k w ->
  ((ord_ends h Lower a b (Ok true) /\ eq_ends h a b (Ok false) /\ ord_ends h Greater a b (Ok false)) \/
   (ord_ends h Lower a b (Ok false) /\ eq_ends h a b (Ok true) /\ ord_ends h Greater a b (Ok false)) \/
   (ord_ends h Lower a b (Ok false) /\ eq_ends h a b (Ok false) /\ ord_ends h Greater a b (Ok true))) /\
  (ord_ends h AtMost a b (Ok true) <-> ord_ends h Lower a b (Ok true) \/ eq_ends h a b (Ok true)) /\
  (ord_ends h AtLeast a b (Ok true) <-> ord_ends h Greater a b (Ok true) \/ eq_ends h a b (Ok true)) /\
  (forall r, ord_ends h Lower a b r <-> ord_ends h Greater b a r) /\
  (forall r, ord_ends h AtMost a b r <-> ord_ends h AtLeast b a r).
Proof.
  intros Ha Hb H K. destruct (kind_ranks k v w H K) as (c & R & _).
  destruct (kind_ends h k a b v w c Ha Hb H K R) as (O & E). destruct (kind_ends h k b a w v (CompOpp c) Hb Ha K H (kind_flip k v w c H K R)) as (O' & E').
  pose proof (O Lower) as O1. pose proof (O AtMost) as O2. pose proof (O Greater) as O3. pose proof (O AtLeast) as O4. pose proof (O' Greater) as O5. pose proof (O' AtLeast) as O6.
  assert (S : forall o o' x y, ord_ends h o a b x -> ord_ends h o' b a y -> x = y -> forall r, ord_ends h o a b r <-> ord_ends h o' b a r).
  { intros o o' x y X Y <- r. split; intro Z; [rewrite <- (ends_one _ _ _ _ _ _ X Z); exact Y|rewrite <- (ends_one _ _ _ _ _ _ Y Z); exact X]. }
  assert (F : forall o, ord_ends h o a b (Ok false) -> ord_ends h o a b (Ok true) -> False) by (intros o X Y; pose proof (ends_one _ _ _ _ _ _ X Y); discriminate).
  assert (F' : eq_ends h a b (Ok false) -> eq_ends h a b (Ok true) -> False) by (intros X Y; pose proof (eq_ends_one _ _ _ _ _ X Y); discriminate).
  split; [destruct c; cbn in *; [right; left|left|right; right]; auto|].
  split; [destruct c; cbn in *; split; intro X; try assumption; try (left; assumption); try (right; assumption); exfalso; eauto; destruct X; eauto|].
  split; [destruct c; cbn in *; split; intro X; try assumption; try (left; assumption); try (right; assumption); exfalso; eauto; destruct X; eauto|]. split; [apply (S _ _ _ _ O1 O5)|apply (S _ _ _ _ O2 O6)]; destruct c; reflexivity.
Qed.
Theorem C103_transitive_partial h k a b c v w x : holds h a v -> holds h b w -> holds h c x -> of_kind k v -> of_kind k w -> of_kind k x ->
  (ord_ends h Lower a b (Ok true) -> ord_ends h Lower b c (Ok true) -> ord_ends h Lower a c (Ok true)) /\
  (ord_ends h AtMost a b (Ok true) -> ord_ends h AtMost b c (Ok true) -> ord_ends h AtMost a c (Ok true)).
Proof.
  intros Ha Hb Hc H K J. destruct (kind_ranks k v w H K) as (d & R & _). destruct (kind_ranks k w x K J) as (d' & R' & _).
  destruct (kind_ends h k a b v w d Ha Hb H K R) as (O & _). destruct (kind_ends h k b c w x d' Hb Hc K J R') as (O' & _).
  destruct (kind_chain k v w x d d' H K J R R') as (Z1 & Z2 & Z3).
  pose proof (fun e Y => proj1 (kind_ends h k a c v x e Ha Hc H J Y)) as T.
  split; intros A B; pose proof (ends_one _ _ _ _ _ _ A (O _)) as A'; pose proof (ends_one _ _ _ _ _ _ B (O' _)) as B'; destruct d, d'; try discriminate.
  - exact (T Lt (Z3 eq_refl eq_refl) Lower).
  - exact (T Eq (Z1 eq_refl) AtMost).
  - exact (T Lt (Z1 eq_refl) AtMost).
  - exact (T Lt (Z2 eq_refl) AtMost).
  - exact (T Lt (Z3 eq_refl eq_refl) AtMost).
Qed.
(** But floats are ordered by their text: the float [1e23] is below the int,
    the wrapped one is not.  And [False < 1] answers while [1 > False] fails. *)
Theorem C103_refuted :
  (exists f z, (float_q f < inject_Z z)%Q /\ let '(a, b, h) := pair_of (VFloat f) (VInt z) in
    ord_ends h Lower a b (Ok false) /\ ord_ends h Greater a b (Ok true)) /\
  (let '(a, b, h) := pair_of (VBool false) (VInt 1) in ord_ends h Lower a b (Ok true) /\ ord_ends h Greater b a (Raise EType)).
Proof.
  split.
  - exists (PFloat 2980232238769531 25 (Dec 1 23)), 99999999999999999999999%Z. split; [vm_compute; reflexivity|].
    destruct (pair_of _ _) as [[a b] h] eqn:E. vm_compute in E. injection E as <- <- <-. split; exists 1; intros [|n] Hn; try lia; vm_compute; reflexivity.
  - destruct (pair_of _ _) as [[a b] h] eqn:E. vm_compute in E. injection E as <- <- <-. split; exists 1; intros [|n] Hn; try lia; vm_compute; reflexivity.
Qed.
(** a shorter list comes first, then the first difference counts *)
Example C103_some : of_kind (KArr KNum) (VList [VInt 1; VDec (Dec 15 (-1))]) /\ of_kind (KArr KNum) (VList [VInt 1; VInt 2]) /\
  let '(a, b, h) := pair_of (VList [VInt 1; VDec (Dec 15 (-1))]) (VList [VInt 1; VInt 2]) in
  nodes_ordered h 3 Lower a b = Ok true /\ nodes_ordered h 3 AtLeast a b = Ok false /\
  let '(a, b, h) := pair_of (VList [VStr (u "ab")]) (VList [VStr (u "ab"); VStr (u "a")]) in nodes_ordered h 3 AtMost a b = Ok true.
Proof. split; [repeat constructor|]. split; [repeat constructor|]. vm_compute. auto. Qed.

(** ** Truth *)
(** the values [bool()] calls false *)
Inductive falsy : pv -> Prop :=
| f_null : falsy VNone
| f_false : falsy (VBool false)
| f_zero x q : number x -> stands_for (Plain x) q -> (q == 0)%Q -> falsy x
| f_text : falsy (VStr [])
| f_list : falsy (VList [])
| f_dict : falsy (VDict []).
Theorem C104_truth h a v : holds h a v -> (node_bool h a = Ok false <-> falsy v) /\ (node_bool h a = Ok true <-> ~ falsy v).
Proof.
  intro H. assert (K : exists b, node_bool h a = Ok b /\ (b = false <-> falsy v)).
  { assert (N : forall d q, number v -> stands_for (Plain v) q -> (dec_q d == q)%Q -> (negb (Qeq_bool (dec_q d) 0) = false <-> falsy v)).
    { intros d q Nv S E. rewrite negb_false_iff, Qeq_bool_iff. split; intro Z; [apply f_zero with q; auto; lra|].
      inversion Z as [| |x q' ? S' E'| | |]; subst; try contradiction. rewrite (worth_one _ _ _ S S') in E. lra. }
    unfold node_bool. destruct (holds_view _ _ _ H) as (x & -> & P). cbn [bind nv_val]. eexists. split; [reflexivity|]. destruct v; cbn in P;
      try (destruct P as (d' & q & -> & S & E); apply (N d' q I S E)).
    - subst. split; [constructor|reflexivity].
    - subst. destruct b; split; intro F; try discriminate; try constructor; inversion F; contradiction.
    - subst. destruct s; split; intro F; try discriminate; try constructor; inversion F; contradiction.
    - destruct P as (els & -> & F). destruct F; split; intro G; try discriminate; try constructor; inversion G; contradiction.
    - destruct P as (its & -> & F). destruct F; split; intro G; try discriminate; try constructor; inversion G; contradiction. }
  destruct K as (b & -> & K). assert (J : forall x y : bool, @Ok bool x = Ok y <-> x = y) by (intros; split; congruence). rewrite !J, <- K. destruct b; intuition congruence.
Qed.
Example C104_truth_some : let '(a, b, h) := pair_of (VDec (Dec 0 (-2))) (VList [VNone]) in node_bool h a = Ok false /\ node_bool h b = Ok true.
Proof. vm_compute. auto. Qed.
