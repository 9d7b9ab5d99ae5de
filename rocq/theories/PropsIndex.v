(** C44: the tokens that are read as an array index. *)
From Verif Require Import PyBase PyBaseFacts PyVal Regex Numbers Uri Pointer Store Validators Heap HeapFacts Doc DocMono DocFacts PropsQuery.
Local Open Scope nat_scope.
Local Notation length := List.length (only parsing).

Section Index.
  Variable dig : N -> option Z.
  (** digits, with at most one underscore between two of them *)
  Inductive spelled : pystr -> list Z -> Prop :=
  | sp_one c d : dig c = Some d -> spelled [c] [d]
  | sp_more c d s ds : dig c = Some d -> spelled s ds -> spelled (c :: s) (d :: ds)
  | sp_under c d s ds : dig c = Some d -> spelled s ds -> spelled (c :: 95%N :: s) (d :: ds).
  Definition decimal (ds : list Z) : Z := fold_left (fun a d => 10 * a + d)%Z ds 0%Z.
  (** white space, a sign, digits, white space *)
  Definition integer_text (s : pystr) (z : Z) : Prop :=
    exists w1 sign t w2 ds, s = w1 ++ sign ++ t ++ w2 /\ Forall (fun c => is_space c = true) w1 /\ Forall (fun c => is_space c = true) w2 /\ spelled t ds /\
      ((sign = [] \/ sign = u "+") /\ z = decimal ds \/ sign = u "-" /\ z = (- decimal ds)%Z).
  (** ASCII digits have their values; signs, the underscore and spaces are no digits *)
  Definition numerals : Prop := digits_ok dig /\ forall c d, dig c = Some d -> is_space c = false /\ c <> 43%N /\ c <> 45%N /\ c <> 95%N.
  Hypothesis Num : numerals.

  Lemma spelled_ne s ds : spelled s ds -> s <> [].
  Proof. destruct 1; discriminate. Qed.
  Lemma int_digits_iff s : forall acc z,
    (int_digits dig s acc true = Some z <-> exists ds, spelled s ds /\ z = fold_left (fun a d => 10 * a + d)%Z ds acc) /\
    (int_digits dig s acc false = Some z <-> (s = [] /\ z = acc) \/ (exists ds, spelled s ds /\ z = fold_left (fun a d => 10 * a + d)%Z ds acc) \/
      exists t ds, s = 95%N :: t /\ spelled t ds /\ z = fold_left (fun a d => 10 * a + d)%Z ds acc).
  Proof.
    destruct Num as [_ Ap]. induction s as [|c s IH]; intros acc z; cbn [int_digits].
    - split; split; [discriminate|intros (ds & H & _); inversion H|intros [= <-]; auto|intros [[_ ->]|[(ds & H & _)|(t & ds & C & _)]]; [reflexivity|inversion H|discriminate]].
    - destruct (dig c) as [d|] eqn:E.
      + destruct (Ap c d E) as (_ & _ & _ & Nc). destruct (IH (10 * acc + d)%Z z) as [_ IHf].
        assert (K : int_digits dig s (10 * acc + d) false = Some z <-> exists ds, spelled (c :: s) ds /\ z = fold_left (fun a d => 10 * a + d)%Z ds acc).
        { rewrite IHf. split.
          - intros [[-> ->]|[(ds & H & ->)|(t & ds & -> & H & ->)]]; [exists [d]; split; [constructor; exact E|reflexivity]|exists (d :: ds); split; [apply sp_more; assumption|reflexivity]|exists (d :: ds); split; [apply sp_under; assumption|reflexivity]].
          - intros (ds & H & ->). inversion H as [c' d' E'|c' d' s' ds' E' H'|c' d' s' ds' E' H']; subst; rewrite E in E'; injection E' as <-; cbn [fold_left]; [left; auto|right; left; eauto|right; right; eauto]. }
        split; rewrite K; [reflexivity|]. split; [intro H; right; left; exact H|]. intros [[C _]|[H|(t & ds & C & _)]]; [discriminate|exact H|]. injection C as -> _. congruence.
      + assert (No : forall ds, ~ spelled (c :: s) ds) by (intros ds H; inversion H; congruence). destruct (N.eqb_spec c 95) as [->|Nc]; cbn [andb negb].
        * split; [split; [discriminate|intros (ds & H & _); destruct (No ds H)]|]. destruct (IH acc z) as [IHt _]. rewrite IHt. split.
          -- intros (ds & H & ->). right. right. eauto.
          -- intros [[C _]|[(ds & H & _)|(t & ds & C & H & ->)]]; [discriminate|destruct (No ds H)|]. injection C as <-. eauto.
        * split; (split; [discriminate|]); [intros (ds & H & _); destruct (No ds H)|]. intros [[C _]|[(ds & H & _)|(t & ds & C & _)]]; [discriminate|destruct (No ds H)|congruence].
  Qed.
  Lemma lstrip_split s : exists w, s = w ++ lstrip s /\ Forall (fun c => is_space c = true) w /\ forall c t, lstrip s = c :: t -> is_space c = false.
  Proof.
    induction s as [|c s IH]; [exists []; repeat split; [constructor|discriminate]|]. cbn [lstrip]. destruct (is_space c) eqn:E.
    - destruct IH as (w & E1 & F & N1). exists (c :: w). split; [cbn; congruence|]. split; [constructor; assumption|exact N1].
    - exists []. split; [reflexivity|]. split; [constructor|]. intros c' t [= <- <-]. exact E.
  Qed.
  Lemma lstrip_spaces w s : Forall (fun c => is_space c = true) w -> (forall c t, s = c :: t -> is_space c = false) -> lstrip (w ++ s) = s.
  Proof.
    intros F N1. induction F as [|c w Hc F IH]; cbn [app lstrip]; [|rewrite Hc; exact IH]. destruct s as [|c t]; [reflexivity|]. cbn [lstrip]. rewrite (N1 c t eq_refl). reflexivity.
  Qed.
  Lemma strip_split s : exists w1 w2, s = w1 ++ rev (lstrip (rev (lstrip s))) ++ w2 /\ Forall (fun c => is_space c = true) w1 /\ Forall (fun c => is_space c = true) w2.
  Proof.
    destruct (lstrip_split s) as (w1 & E1 & F1 & _). destruct (lstrip_split (rev (lstrip s))) as (w2 & E2 & F2 & _). exists w1, (rev w2). split; [|split; [exact F1|apply Forall_rev, F2]].
    rewrite E1 at 1. f_equal. rewrite <- (rev_involutive (lstrip s)) at 1. rewrite E2 at 1. rewrite rev_app_distr. reflexivity.
  Qed.
  Lemma strip_middle w1 m w2 : Forall (fun c => is_space c = true) w1 -> Forall (fun c => is_space c = true) w2 -> (forall c t, m = c :: t -> is_space c = false) -> (forall t c, m = t ++ [c] -> is_space c = false) -> m <> [] ->
    rev (lstrip (rev (lstrip (w1 ++ m ++ w2)))) = m.
  Proof.
    intros F1 F2 H1 H2 Nm. rewrite (lstrip_spaces w1); [|exact F1|].
    - rewrite rev_app_distr, lstrip_spaces; [apply rev_involutive|apply Forall_rev, F2|]. intros c t E. apply (H2 (rev t) c). rewrite <- (rev_involutive m), E. reflexivity.
    - intros c t E. destruct m as [|x m]; [congruence|]. injection E as <- _. exact (H1 x m eq_refl).
  Qed.
  Lemma spelled_first s ds c t : spelled s ds -> s = c :: t -> exists d, dig c = Some d.
  Proof. destruct 1; intros [= <- _]; eauto. Qed.
  Lemma spelled_last s ds : spelled s ds -> forall t c, s = t ++ [c] -> exists d, dig c = Some d.
  Proof.
    induction 1 as [c d E|c d s ds E H IH|c d s ds E H IH]; intros t x Et.
    - destruct t as [|y t]; [injection Et as <-; eauto|]. destruct t; discriminate.
    - destruct t as [|y t]; [injection Et as -> ->; destruct (spelled_ne _ _ H eq_refl)|]. injection Et as _ Et. exact (IH t x Et).
    - destruct t as [|y [|y' t]]; [discriminate|injection Et as _ _ ->; destruct (spelled_ne _ _ H eq_refl)|]. injection Et as _ _ Et. exact (IH t x Et).
  Qed.
  (** ** What is read as an integer *)
  Theorem C44_token s z : py_int dig s = Some z <-> integer_text s z.
  Proof.
    destruct Num as [_ Ap]. unfold py_int, integer_text. split.
    - intro H. destruct (strip_split s) as (w1 & w2 & Es & F1 & F2). destruct (rev (lstrip (rev (lstrip s)))) as [|c m] eqn:Em; [discriminate|].
      destruct (N.eqb_spec c 43) as [->|Np]; [|destruct (N.eqb_spec c 45) as [->|Nm]].
      + apply int_digits_iff in H as (ds & Sp & ->). exists w1, (u "+"), m, w2, ds. split; [exact Es|]. auto 8.
      + destruct (int_digits dig m 0 true) as [y|] eqn:Ey; [|discriminate]. apply int_digits_iff in Ey as (ds & Sp & ->). injection H as <-. exists w1, (u "-"), m, w2, ds. split; [exact Es|]. auto 8.
      + apply int_digits_iff in H as (ds & Sp & ->). exists w1, [], (c :: m), w2, ds. split; [exact Es|]. auto 8.
    - intros (w1 & sign & t & w2 & ds & -> & F1 & F2 & Sp & Hz). rewrite (app_assoc sign).
      assert (Sg : sign = [] \/ exists c, sign = [c] /\ is_space c = false). { destruct Hz as [[[->| ->] _]|[-> _]]; [left; reflexivity|right; eexists; split; reflexivity..]. }
      pose proof (spelled_ne _ _ Sp) as Nt.
      rewrite strip_middle; [|exact F1|exact F2| | |].
      + destruct Hz as [[[->| ->] ->]|[-> ->]]; cbn [app].
        * destruct t as [|c t]; [congruence|]. destruct (spelled_first _ _ c t Sp eq_refl) as [d E]. destruct (Ap c d E) as (_ & N1 & N2 & _). destruct (N.eqb_spec c 43); [congruence|]. destruct (N.eqb_spec c 45); [congruence|]. apply int_digits_iff. eauto.
        * cbn. apply int_digits_iff. eauto.
        * cbn. assert (Q : int_digits dig t 0 true = Some (decimal ds)) by (apply int_digits_iff; eauto). rewrite Q. reflexivity.
      + intros c x E. destruct Sg as [->|(y & -> & Hy)]; [cbn in E; destruct (spelled_first _ _ c x Sp E) as [d Ed]; apply (Ap c d Ed)|injection E as <- _; exact Hy].
      + intros x c E. destruct (exists_last Nt) as (t' & l & ->). rewrite app_assoc in E. apply app_inj_tail in E as [_ <-]. destruct (spelled_last _ _ Sp t' l eq_refl) as [d Ed]. apply (Ap l d Ed).
      + intro C. apply app_eq_nil in C as [_ C]. congruence.
  Qed.
  (** the element of an array of [n] a token means: from the front, or from the end *)
  Theorem C44_index k n i : means_index dig k n i <-> i < n /\ (integer_text k (Z.of_nat i) \/ integer_text k (Z.of_nat i - Z.of_nat n)).
  Proof. unfold means_index. rewrite <- !C44_token. reflexivity. Qed.
End Index.
Lemma ex_numerals : numerals ex_dig.
Proof.
  split; [exact ex_dig_ok|]. intros c d E. unfold ex_dig in E. destruct ((48 <=? c) && (c <=? 57))%N eqn:R; [|discriminate]. apply andb_true_iff in R as [R1 R2]. apply N.leb_le in R1, R2.
  split; [|lia]. assert (H : In c (map N.of_nat (seq 48 10))). { apply in_map_iff. exists (N.to_nat c). split; [lia|]. apply in_seq. lia. }
  cbn in H. repeat destruct H as [<-|H]; try reflexivity. destruct H.
Qed.
Example C44_token_some : integer_text ex_dig (u " -1_0") (-10)%Z.
Proof. apply (C44_token ex_dig ex_numerals). reflexivity. Qed.
