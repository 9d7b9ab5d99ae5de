(** C37, C38: wrapping plain values and comparing wrapped with plain values. *)
From Verif Require Import PyBase PyBaseFacts PyVal Validators OrderFacts Numbers PropsNumber Uri Heap HeapFacts.
From Coq Require Import QArith.
Local Open Scope nat_scope.
Local Notation length := List.length (only parsing).

(** Every object in the value has distinct member names. *)
Inductive distinct : pv -> Prop :=
| d_scalar v : (forall l, v <> VList l) -> (forall d, v <> VDict d) -> distinct v
| d_list l : Forall distinct l -> distinct (VList l)
| d_dict d : NoDup (dkeys d) -> Forall (fun kx => distinct (snd kx)) d -> distinct (VDict d).

Theorem C37_shape h v : let '(r, h') := new h v in holds h' r v.
Proof. unfold new. eapply wrap_holds, placed_end. Qed.

(** ** Comparison of the wrapped [a] with the plain [b] *)
Definition number (v : pv) : Prop := match v with VInt _ | VFloat _ | VDec _ => True | _ => False end.
(** equal as JSON values; a wrapped number also equals the bool of its value *)
Inductive same_json : pv -> pv -> Prop :=
| s_null : same_json VNone VNone
| s_bool b : same_json (VBool b) (VBool b)
| s_str s : same_json (VStr s) (VStr s)
| s_num x y p q : number x -> stands_for (Plain x) p -> stands_for (Plain y) q -> (p == q)%Q -> same_json x y
| s_list l m : Forall2 same_json l m -> same_json (VList l) (VList m)
| s_dict d e : length d = length e ->
    Forall (fun kx => exists y, dget (fst kx) e = Some y /\ same_json (snd kx) y) d -> same_json (VDict d) (VDict e).
(** a number meets something that is no number, or a bool something that is no
    bool, before any difference is found *)
Inductive clash : pv -> pv -> Prop :=
| c_num x y : number x -> (forall q, ~ stands_for (Plain y) q) -> clash x y
| c_bool b y : (forall c, y <> VBool c) -> clash (VBool b) y
| c_list l x l' m y m' : Forall2 same_json l m -> length l' = length m' -> clash x y -> clash (VList (l ++ x :: l')) (VList (m ++ y :: m'))
| c_dict d k x d' e y : length (d ++ (k, x) :: d') = length e ->
    Forall (fun kz => exists y, dget (fst kz) e = Some y /\ same_json (snd kz) y) d -> dget k e = Some y -> clash x y ->
    clash (VDict (d ++ (k, x) :: d')) (VDict e).

Section Compare.
  Variable h : heap.
  Notation eqn := (eq_node (hview h)).
  Lemma view_val a p : val h a p -> hview h a =
    match p with
    | PNull => Ok (NView NNull false) | PBool b => Ok (NView (NBool b) false) | PNum d => Ok (NView (NNum d) false)
    | PStr s => Ok (NView (NStr s) false) | PArr l => Ok (NView (NArr l) false) | PObj d => Ok (NView (NObj d) false)
    | PRef _ => Raise EUnmodelled
    end.
  Proof. intros (n & Hn & <-). unfold hview. rewrite Hn. destruct (n_val n); reflexivity. Qed.

  Lemma eq_null a w : val h a PNull -> eqn w a = Ok (match w with VNone => true | _ => false end).
  Proof. intro H. apply view_val in H. destruct w; cbn; rewrite H; reflexivity. Qed.
  Lemma eq_str a s w : val h a (PStr s) -> eqn w a = Ok (match w with VStr t => str_eqb s t | _ => false end).
  Proof. intro H. apply view_val in H. destruct w; cbn; rewrite H; reflexivity. Qed.
  Lemma eq_bool a b w : val h a (PBool b) -> eqn w a = match w with VBool c => Ok (Bool.eqb b c) | _ => Raise EType end.
  Proof. intro H. apply view_val in H. destruct w; cbn; rewrite H; reflexivity. Qed.
  Lemma eq_num a d w : val h a (PNum d) -> eqn w a = num_eq d (Plain w).
  Proof. intro H. apply view_val in H. destruct w; cbn; rewrite H; reflexivity. Qed.
  Lemma eq_arr a els w : val h a (PArr els) -> eqn w a =
    match w with VList m => if Nat.eqb (length els) (length m) then list_eq (hview h) m els else Ok false | _ => Ok false end.
  Proof. intro H. apply view_val in H. destruct w; try (cbn; rewrite H; reflexivity). Qed.
  Lemma eq_obj a its w : val h a (PObj its) -> eqn w a =
    match w with VDict e => if Nat.eqb (length its) (length e) then dict_eq (hview h) e its else Ok false | _ => Ok false end.
  Proof. intro H. apply view_val in H. destruct w; try (cbn; rewrite H; reflexivity). rewrite eq_node_dict, H. reflexivity. Qed.

  (** what the comparison answers *)
  Definition verdict (a b : pv) (r : res bool) : Prop :=
    (r = Ok true /\ same_json a b /\ ~ clash a b) \/ (r = Ok false /\ ~ same_json a b /\ ~ clash a b) \/ (r = Raise EType /\ clash a b /\ ~ same_json a b).

  Lemma num_verdict x d w : number x -> (exists q, stands_for (Plain x) q /\ (dec_q d == q)%Q) -> verdict x w (num_eq d (Plain w)).
  Proof.
    intros Hx (q & Hq & E).
    assert (S : forall p q, stands_for (Plain x) p -> stands_for (Plain x) q -> p = q) by (intros p1 p2 A B; inversion A; subst; inversion B; reflexivity).
    assert (D : (exists p, stands_for (Plain w) p) \/ (forall p, ~ stands_for (Plain w) p)).
    { destruct w as [|[]| | | | | |]; try (left; eexists; constructor); right; intros p Hp; inversion Hp. }
    destruct D as [[p Hp]|D].
    - assert (NC : ~ clash x w) by (intro K; inversion K; subst; try contradiction; eapply H0; eauto).
      destruct (C42_exact d _ p Hp) as (e & _ & _ & _ & _ & He & _ & _ & _ & _ & I & _). rewrite He.
      assert (same_json x w <-> e = true).
      { rewrite I. split.
        - intro K. assert (U : forall p1 p2, stands_for (Plain w) p1 -> stands_for (Plain w) p2 -> p1 = p2) by (intros p1 p2 A B; inversion A; subst; inversion B; reflexivity).
          inversion K; subst; try contradiction. rewrite E, (S _ _ Hq H0), H2, (U _ _ H1 Hp). reflexivity.
        - intro K. eapply s_num; eauto. rewrite <- E. exact K. }
      destruct e; [left|right; left]; intuition discriminate.
    - right; right. assert (K : num_eq d (Plain w) = Raise EType) by (apply C42_refused, D). rewrite K. split; [reflexivity|]. split; [constructor; assumption|].
      intro K2. inversion K2; subst; try contradiction. eapply D; eauto.
  Qed.

  Lemma list_verdict l : Forall (fun a => forall n b, holds h n a -> verdict a b (eqn b n)) l ->
    forall els m, Forall2 (holds h) els l -> length els = length m ->
    (list_eq (hview h) m els = Ok true /\ Forall2 same_json l m) \/
    (exists l1 x l2 m1 y m2, l = l1 ++ x :: l2 /\ m = m1 ++ y :: m2 /\ Forall2 same_json l1 m1 /\ length l2 = length m2 /\
       ((list_eq (hview h) m els = Ok false /\ ~ same_json x y /\ ~ clash x y) \/ (list_eq (hview h) m els = Raise EType /\ clash x y /\ ~ same_json x y))).
  Proof.
    induction 1 as [|a l Ha _ IH]; intros els m Hf Hlen; inversion Hf as [|n ? els' ? Hn Hf']; subst; destruct m as [|b m]; try discriminate.
    - left. split; [reflexivity|constructor].
    - injection Hlen as Hlen. cbn [list_eq]. destruct (Ha n b Hn) as [(E & S & _)|[(E & N & C)|(E & C & N)]]; rewrite E; cbn [bind].
      + destruct (IH els' m Hf' Hlen) as [[E1 F]|(l1 & x & l2 & m1 & y & m2 & -> & -> & F & L & K)].
        * left. split; [exact E1|constructor; assumption].
        * right. exists (a :: l1), x, l2, (b :: m1), y, m2. split; [reflexivity|]. split; [reflexivity|]. split; [constructor; assumption|]. split; [exact L|exact K].
      + right. exists [], a, l, [], b, m. do 2 (split; [reflexivity|]). split; [constructor|]. split; [|auto]. rewrite <- Hlen. symmetry. apply (Forall2_len Hf').
      + right. exists [], a, l, [], b, m. do 2 (split; [reflexivity|]). split; [constructor|]. split; [|auto]. rewrite <- Hlen. symmetry. apply (Forall2_len Hf').
  Qed.
  Notation found e := (fun kx => exists y, dget (fst kx) e = Some y /\ same_json (snd kx) y).
  Lemma dict_verdict d : Forall (fun ka => forall n b, holds h n (snd ka) -> verdict (snd ka) b (eqn b n)) d ->
    forall its e, Forall2 (fun ka kx => fst ka = fst kx /\ holds h (snd ka) (snd kx)) its d ->
    (dict_eq (hview h) e its = Ok true /\ Forall (found e) d) \/
    (exists d1 k x d2, d = d1 ++ (k, x) :: d2 /\ Forall (found e) d1 /\
       ((dict_eq (hview h) e its = Ok false /\ dget k e = None) \/
        (exists y, dget k e = Some y /\ ((dict_eq (hview h) e its = Ok false /\ ~ same_json x y /\ ~ clash x y) \/ (dict_eq (hview h) e its = Raise EType /\ clash x y /\ ~ same_json x y))))).
  Proof.
    induction 1 as [|[k a] d Ha _ IH]; intros its e Hf; inversion Hf as [|[k' n] ? its' ? [Hk Hn] Hf']; subst; cbn [fst snd] in *; subst.
    - left. split; [reflexivity|constructor].
    - cbn [dict_eq]. destruct (dget k e) as [y|] eqn:G.
      2:{ right. exists [], k, a, d. split; [reflexivity|]. split; [constructor|]. left. auto. }
      destruct (Ha n y Hn) as [(E & S & _)|[(E & N & C)|(E & C & N)]]; rewrite E; cbn [bind].
      + destruct (IH its' e Hf') as [[E1 F]|(d1 & k1 & x1 & d2 & -> & F & K)].
        * left. split; [exact E1|]. constructor; [|exact F]. cbn. eauto.
        * right. exists ((k, a) :: d1), k1, x1, d2. split; [reflexivity|]. split; [|exact K]. constructor; [|exact F]. cbn. eauto.
      + right. exists [], k, a, d. split; [reflexivity|]. split; [constructor|]. right. exists y. auto.
      + right. exists [], k, a, d. split; [reflexivity|]. split; [constructor|]. right. exists y. auto.
  Qed.
  Lemma Forall2_split {A B} (R : A -> B -> Prop) l1 x l2 m1 y m2 : Forall2 R (l1 ++ x :: l2) (m1 ++ y :: m2) -> length l1 = length m1 -> Forall2 R l1 m1 /\ R x y /\ Forall2 R l2 m2.
  Proof.
    revert m1. induction l1 as [|a l1 IH]; intros [|b m1] H L; try discriminate; cbn in H; inversion H; subst; [auto|].
    injection L as L. destruct (IH m1 H5 L) as (K1 & K2 & K3). auto.
  Qed.
  Lemma first_unique l1 x l2 m1 y m2 l1' x' l2' m1' y' m2' : l1 ++ x :: l2 = l1' ++ x' :: l2' -> m1 ++ y :: m2 = m1' ++ y' :: m2' ->
    Forall2 same_json l1 m1 -> Forall2 same_json l1' m1' -> ~ same_json x y -> ~ same_json x' y' -> x = x' /\ y = y'.
  Proof.
    revert m1 l1' m1'. induction l1 as [|a l1 IH]; intros m1 l1' m1' E1 E2 F1 F2 N1 N2.
    - inversion F1; subst. destruct l1' as [|a' l1']; inversion F2; subst; cbn in *; [injection E1 as -> _; injection E2 as -> _; auto|].
      injection E1 as -> _. injection E2 as -> _. contradiction.
    - inversion F1 as [|? b ? m1r]; subst. destruct l1' as [|a' l1']; inversion F2; subst; cbn in *; [injection E1 as -> _; injection E2 as -> _; contradiction|].
      injection E1 as -> E1. injection E2 as -> E2. eapply IH; eauto.
  Qed.
  Lemma first_member e d1 k x d2 d1' k' x' d2' y' : Forall (found e) d1 -> d1' ++ (k', x') :: d2' = d1 ++ (k, x) :: d2 -> Forall (found e) d1' ->
    dget k' e = Some y' -> ~ same_json x' y' -> (dget k e = None \/ exists y, dget k e = Some y /\ ~ same_json x y) -> k' = k /\ x' = x.
  Proof.
    intros F EA F' G' N' B. revert d1' EA F'.
    induction F as [|[k1 x1] d1 (y1 & G1 & S1) F IHF]; intros d1' EA F'; destruct d1' as [|[k2 x2] d1']; cbn in EA.
    - injection EA as -> -> _. auto.
    - injection EA as -> -> _. exfalso. inversion F' as [|? ? (y2 & G2 & S2) _]; subst; cbn in *. destruct B as [B|(y & B & N)]; congruence.
    - injection EA as -> -> _. exfalso. cbn in *. congruence.
    - injection EA as -> -> EA. inversion F'; subst. eapply IHF; eauto.
  Qed.
  Lemma clash_not_same a b : clash a b -> ~ same_json a b.
  Proof.
    induction 1 as [x y Hx Hy|b y Hb|l x l' m y m' F L C IH|d k x d' e y L F G C IH]; intro S.
    - inversion S; subst; try contradiction. eapply Hy; eauto.
    - inversion S; subst; try contradiction. eapply Hb; reflexivity.
    - inversion S as [| | |? ? ? ? K|? ? K|]; subst; [contradiction|]. apply Forall2_split in K as (_ & K & _); [auto|]. apply (Forall2_len F).
    - inversion S as [| | |? ? ? ? K|? ? K|? ? _ K]; subst; [contradiction|]. apply Forall_app in K as [_ K]. inversion K as [|? ? (y' & G' & S') _]; subst. cbn in *. apply IH. congruence.
  Qed.

  Lemma compare_verdict a : forall n b, holds h n a -> verdict a b (eqn b n).
  Proof.
    induction a as [a Hl Hd|l IH|d IH] using pv_ind_deep; intros n b H.
    - inversion H as [? Hv|? c Hv|? s Hv|? z e Hv He|? f e Hv He|? e' e Hv He|? l' els Hv|? d' its Hv]; subst; try (exfalso; eapply Hl; reflexivity); try (exfalso; eapply Hd; reflexivity).
      + rewrite (eq_null _ _ Hv). assert (NC : ~ clash VNone b) by (intro K; inversion K; subst; contradiction).
        destruct b; [left; split; [reflexivity|]; split; [constructor|exact NC]|..]; right; left; (split; [reflexivity|]); (split; [|exact NC]); intro K; inversion K; subst; contradiction.
      + rewrite (eq_bool _ _ _ Hv). destruct b as [|b0| | | | | |]; try (right; right; split; [reflexivity|]; split; [apply c_bool; discriminate|]; intro K; inversion K; subst; contradiction).
        assert (NC : ~ clash (VBool c) (VBool b0)) by (intro K; inversion K; subst; [contradiction|]; eapply H1; reflexivity).
        destruct (Bool.eqb_spec c b0) as [->|Hn]; [left; split; [reflexivity|]; split; [constructor|exact NC]|right; left; split; [reflexivity|]; split; [|exact NC]].
        intro K; inversion K; subst; contradiction.
      + rewrite (eq_str _ _ _ Hv). assert (NC : ~ clash (VStr s) b) by (intro K; inversion K; subst; contradiction).
        destruct b as [| | | | |t| |]; try (right; left; split; [reflexivity|]; split; [|exact NC]; intro K; inversion K; subst; contradiction).
        destruct (str_eqb_spec s t) as [->|Hn]; [left; split; [reflexivity|]; split; [constructor|exact NC]|right; left; split; [reflexivity|]; split; [|exact NC]].
        intro K; inversion K; subst; contradiction.
      + rewrite (eq_num _ _ _ Hv). apply num_verdict; [exact I|]. eexists; split; [constructor|]. unfold dec_q, scaled. cbn. rewrite Z.mul_1_r. reflexivity.
      + rewrite (eq_num _ _ _ Hv). apply num_verdict; [exact I|]. eexists; split; [constructor|reflexivity].
      + rewrite (eq_num _ _ _ Hv). apply num_verdict; [exact I|]. eexists; split; [constructor|reflexivity].
    - inversion H as [| | | | | |? ? els Hv Hf|]; subst. rewrite (eq_arr _ _ _ Hv).
      destruct b as [| | | | | |m|]; try (right; left; split; [reflexivity|]; split; intro K; inversion K; subst; contradiction).
      pose proof (Forall2_len Hf) as Len. destruct (Nat.eqb_spec (length els) (length m)) as [L|L].
      + destruct (list_verdict l IH els m Hf L) as [[E F]|(l1 & x & l2 & m1 & y & m2 & -> & -> & F & L2 & [(E & N & C)|(E & C & N)])].
        * left. split; [exact E|]. split; [constructor; exact F|]. intro K. apply clash_not_same in K. apply K. constructor; exact F.
        * right; left. split; [exact E|]. split.
          -- intro K. inversion K as [| | |? ? ? ? K'|? ? K'|]; subst; [contradiction|]. apply Forall2_split in K' as (_ & K' & _); [auto|]. apply (Forall2_len F).
          -- intro K. inversion K as [? ? K'| |l1' x' l2' m1' y' m2' F' L' C' EA EB|]; subst; [contradiction|].
             destruct (first_unique _ _ _ _ _ _ _ _ _ _ _ _ EA EB F' F (clash_not_same _ _ C') N) as [-> ->]. contradiction.
        * right; right. split; [exact E|]. assert (K : clash (VList (l1 ++ x :: l2)) (VList (m1 ++ y :: m2))) by (apply c_list; assumption).
          split; [exact K|apply clash_not_same, K].
      + right; left. split; [reflexivity|]. split; intro K.
        * inversion K as [| | |? ? ? ? K'|? ? K'|]; subst; [contradiction|]. apply Forall2_len in K'. congruence.
        * inversion K as [? ? K'| |l1' x' l2' m1' y' m2' F' L' C' EA EB|]; subst; [contradiction|]. apply Forall2_len in F'. rewrite !app_length in *. cbn in *. lia.
    - inversion H as [| | | | | | |? ? its Hv Hf]; subst. rewrite (eq_obj _ _ _ Hv).
      destruct b as [| | | | | | |e]; try (right; left; split; [reflexivity|]; split; intro K; inversion K; subst; contradiction).
      pose proof (Forall2_len Hf) as Len. destruct (Nat.eqb_spec (length its) (length e)) as [L|L].
      + destruct (dict_verdict d IH its e Hf) as [[E F]|(d1 & k & x & d2 & -> & F & K0)].
        * left. split; [exact E|]. assert (S : same_json (VDict d) (VDict e)) by (constructor; [congruence|exact F]). split; [exact S|]. intro K. apply clash_not_same in K. auto.
        * assert (U : forall d1' k' x' d2' y', d1' ++ (k', x') :: d2' = d1 ++ (k, x) :: d2 -> Forall (found e) d1' -> dget k' e = Some y' -> ~ same_json x' y' ->
                    (dget k e = None \/ exists y, dget k e = Some y /\ ~ same_json x y) -> k' = k /\ x' = x).
          { intros d1' k' x' d2' y' EA F' G' N' B. exact (first_member e d1 k x d2 d1' k' x' d2' y' F EA F' G' N' B). }
          assert (NS : (dget k e = None \/ exists y, dget k e = Some y /\ ~ same_json x y) -> ~ same_json (VDict (d1 ++ (k, x) :: d2)) (VDict e)).
          { intros B K. inversion K as [| | |? ? ? ? K'|? ? K'|? ? _ K']; subst; [contradiction|]. apply Forall_app in K' as [_ K']. inversion K' as [|? ? (y' & G' & S') _]; subst. cbn in *.
            destruct B as [B|(y & B & N)]; congruence. }
          destruct K0 as [[E G]|(y & G & [(E & N & C)|(E & C & N)])].
          -- right; left. split; [exact E|]. split; [apply NS; auto|]. intro K. inversion K as [? ? K'| | |d1' k' x' d2' ? y' L' F' G' C' EA]; subst; [contradiction|].
             destruct (U _ _ _ _ _ EA F' G' (clash_not_same _ _ C')) as [-> ->]; [auto|]. congruence.
          -- right; left. split; [exact E|]. split; [apply NS; eauto|]. intro K. inversion K as [? ? K'| | |d1' k' x' d2' ? y' L' F' G' C' EA]; subst; [contradiction|].
             destruct (U _ _ _ _ _ EA F' G' (clash_not_same _ _ C')) as [-> ->]; [eauto|]. apply C. congruence.
          -- right; right. split; [exact E|]. split; [|apply NS; eauto]. eapply c_dict; eauto. congruence.
      + right; left. split; [reflexivity|]. split; intro K.
        * inversion K as [| | |? ? ? ? K'|? ? K'|? ? K' _]; subst; [contradiction|]. congruence.
        * inversion K as [? ? K'| | |d1' k' x' d2' ? y' L' F' G' C' EA]; subst; [contradiction|]. congruence.
  Qed.
End Compare.

(** comparing answers True on equal values, False on different ones, and fails
    with TypeError exactly on a clash *)
Theorem C38_exact h v w : let '(r, h') := new h v in
  (eq_node (hview h') w r = Ok true <-> same_json v w) /\
  (eq_node (hview h') w r = Raise EType <-> clash v w) /\
  (eq_node (hview h') w r = Ok false <-> ~ same_json v w /\ ~ clash v w).
Proof.
  pose proof (C37_shape h v) as H. destruct (new h v) as [r h']. destruct (compare_verdict h' v r w H) as [(E & S & C)|[(E & S & C)|(E & S & C)]]; rewrite E; intuition discriminate.
Qed.
Lemma clash_head_num x y : number x -> number y \/ (exists b, y = VBool b) -> ~ clash x y.
Proof.
  intros Hx Hy K. inversion K; subst; try contradiction. destruct Hy as [Hy|[[] ->]]; [destruct y; try contradiction; eapply H0; constructor|eapply H0; constructor|eapply H0; constructor].
Qed.
(** so two values of the same kinds everywhere are always compared *)
Inductive same_kinds : pv -> pv -> Prop :=
| k_null y : same_kinds VNone y
| k_str s y : same_kinds (VStr s) y
| k_bool b c : same_kinds (VBool b) (VBool c)
| k_num x y : number x -> number y -> same_kinds x y
| k_list l y : (forall m, y = VList m -> Forall2 same_kinds l m) -> same_kinds (VList l) y
| k_dict d y : (forall e, y = VDict e -> Forall (fun kx => forall z, dget (fst kx) e = Some z -> same_kinds (snd kx) z) d) -> same_kinds (VDict d) y.
Lemma same_kinds_clash v w : clash v w -> ~ same_kinds v w.
Proof.
  induction 1 as [x y Hx Hy|b y Hb|l x l' m y m' F L C IH|d k x d' e y L F G C IH]; intro S.
  - inversion S; subst; try contradiction. destruct y; try contradiction; eapply Hy; constructor.
  - inversion S; subst; try contradiction. eapply Hb; reflexivity.
  - inversion S as [| | |? ? K|? ? K|]; subst; [contradiction|]. specialize (K _ eq_refl). apply Forall2_split in K as (_ & K & _); [auto|]. apply (Forall2_len F).
  - inversion S as [| | |? ? K|? ? K|? ? K]; subst; [contradiction|]. specialize (K _ eq_refl). apply Forall_app in K as [_ K]. inversion K as [|? ? K' _]; subst. cbn in *. auto.
Qed.
Theorem C38_partial h v w : same_kinds v w -> let '(r, h') := new h v in exists b, eq_node (hview h') w r = Ok b.
Proof.
  intro K. pose proof (C37_shape h v) as H. destruct (new h v) as [r h']. destruct (compare_verdict h' v r w H) as [(E & S & C)|[(E & S & C)|(E & C & S)]]; eauto.
  exfalso. exact (same_kinds_clash _ _ C K).
Qed.
Theorem C38_refuted : exists v w, let '(r, h') := new [] v in eq_node (hview h') w r = Raise EType.
Proof. exists (VDict [(u "a", VInt 1)]), (VDict [(u "a", VStr (u "x"))]). vm_compute. reflexivity. Qed.
(** the answer depends on which difference comes first *)
Example C38_order : let '(r, h') := new [] (VList [VStr (u "a"); VInt 1]) in
  eq_node (hview h') (VList [VStr (u "b"); VNone]) r = Ok false /\ eq_node (hview h') (VList [VStr (u "a"); VNone]) r = Raise EType /\
  eq_node (hview h') (VList [VStr (u "a"); VBool true]) r = Ok true.
Proof. vm_compute. auto. Qed.

(** wrapping keeps the value: it compares equal to what was wrapped *)
Lemma same_refl v : distinct v -> same_json v v.
Proof.
  induction v as [v Hl Hd|l IH|d IH] using pv_ind_deep; intro D.
  - destruct v as [|b|z|f|d|s|l|d]; try (exfalso; eapply Hl; reflexivity); try (exfalso; eapply Hd; reflexivity); try constructor; eapply s_num; try constructor; try exact I; reflexivity.
  - inversion D as [? Hl|? D'|]; subst; [exfalso; eapply Hl; reflexivity|]. constructor. clear D. induction IH as [|x l Hx _ IHl]; inversion D'; subst; constructor; auto.
  - inversion D as [? ? Hd| |? Hn D']; subst; [exfalso; eapply Hd; reflexivity|]. constructor; [reflexivity|]. rewrite Forall_forall in *. intros [k x] Hin. exists x. split; [apply In_dget; assumption|]. apply IH; auto.
Qed.
Theorem C37_equal h v : distinct v -> let '(r, h') := new h v in eq_node (hview h') v r = Ok true.
Proof. intro D. pose proof (C38_exact h v v) as H. destruct (new h v) as [r h']. apply H, same_refl, D. Qed.
Definition C37_value : pv := VDict [(u "a", VList [VInt 1; VBool true; VNone; VFloat (PFloat 3602879701896397 (-55) (Dec 1 (-1)))]); (u "b", VDict [(u "a", VStr (u "x"))])].
Example C37_some : distinct C37_value /\ let '(r, h') := new [] C37_value in length h' = 8 /\ eq_node (hview h') C37_value r = Ok true.
Proof.
  split; [|vm_compute; auto]. unfold C37_value.
  assert (S : forall v, match v with VList _ | VDict _ => False | _ => True end -> distinct v) by (intros v Hv; apply d_scalar; intros ? ->; exact Hv).
  apply d_dict; [repeat constructor; cbn; intuition discriminate|]. constructor; [apply d_list; repeat apply Forall_cons; try apply Forall_nil; apply S; exact I|].
  constructor; [|constructor]. apply d_dict; [repeat constructor; cbn; intuition discriminate|]. apply Forall_cons; [apply S; exact I|apply Forall_nil].
Qed.
