(** C101: several threads and a document that is not loaded yet. *)
From Verif Require Import PyBase PyBaseFacts PyVal OrderFacts Regex Numbers Uri Pointer Store Validators Heap HeapFacts PropsWrap PropsPlaces Doc DocMono DocFacts DocLoad PropsLoad PropsQuery PropsRef PropsUriEx LoadThreads LoadThreadFacts.
Local Open Scope nat_scope.
Local Notation length := List.length (only parsing).

(** ** The specification *)
(** what a thread asks of the document: [schema.value], or [schema.query(text)] *)
Inductive job := JValue | JQuery (text : pystr).
Section Jobs.
  Variables (auth : pystr -> option authority) (dig : N -> option Z) (strx : heap -> addr -> pystr) (fetch : uri -> res pv).
  Variable s : nat.
  (** as a thread, with calls up to depth [n] *)
  Definition thread (n : nat) (j : job) : prog addr :=
    match j with
    | JValue => t_value (t_exec auth dig strx fetch n) s
    | JQuery text => pbind (Done (pointer_parse text)) (fun p => t_exec auth dig strx fetch n addr (CQuery s p))
    end.
  (** without other threads, by [Doc.v] *)
  Definition by_itself (n : nat) (j : job) : M addr :=
    match j with
    | JValue => _ <~ load_n auth dig strx fetch n s ;; x <~ schema_at s ;; ret (s_value x)
    | JQuery text => query_text auth dig strx fetch n s text
    end.
End Jobs.
(** no object outside arrays has a member that a keyword takes note of, but for
    an identifier of the document *)
Definition unreferenced (voc : list appkw) (v : pv) : Prop :=
  forall d, v = VDict d -> forall k x, In (k, x) d ->
    (In k (triggers voc) -> k = u "$id" \/ k = u "id") /\ without (triggers voc) x.

(** ** Programs that come to one outcome whatever others do *)
Section Safe.
  Variable Inv : world -> Prop.
  Fixpoint safe {A} (Q : res A -> Prop) (p : prog A) : Prop :=
    match p with
    | Done r => Q r
    | Act f => forall w, Inv w -> let (w', p') := f w in Inv w' /\ safe Q p'
    end.
  Lemma prog_ind' {A} (P : prog A -> Prop) : (forall r, P (Done r)) -> (forall f, (forall w, P (snd (f w))) -> P (Act f)) -> forall p, P p.
  Proof.
    intros H1 H2. fix IH 1. intros [r|f]; [apply H1|]. apply H2. intro w. destruct (f w) as [w' p']. apply IH.
  Qed.
  Lemma safe_weaken {A} (Q Q' : res A -> Prop) p : (forall r, Q r -> Q' r) -> safe Q p -> safe Q' p.
  Proof.
    intro H. induction p as [r|f IH] using prog_ind'; cbn [safe]; [apply H|]. intros Hf w Hw. specialize (Hf w Hw). specialize (IH w).
    destruct (f w) as [w' p']. destruct Hf as [H1 H2]. split; [exact H1|apply IH, H2].
  Qed.
  Lemma safe_bind {A B} (Q : res B -> Prop) (p : prog A) k :
    safe (fun r => match r with Ok a => safe Q (k a) | Raise e => Q (Raise e) | OutOfFuel => Q OutOfFuel end) p -> safe Q (pbind p k).
  Proof.
    induction p as [r|f IH] using prog_ind'; cbn [safe pbind].
    - destruct r; exact (fun H => H).
    - intros Hf w Hw. specialize (Hf w Hw). specialize (IH w). destruct (f w) as [w' p']. destruct Hf as [H1 H2]. split; [exact H1|apply IH, H2].
  Qed.
  Lemma safe_alone {A} (Q : res A -> Prop) p : safe Q p -> forall w, Inv w -> Q (snd (alone p w)) /\ Inv (fst (alone p w)).
  Proof.
    induction p as [r|f IH] using prog_ind'; cbn [safe alone]; [auto|].
    intros Hf w Hw. specialize (Hf w Hw). specialize (IH w). destruct (f w) as [w' p']. destruct Hf as [H1 H2]. apply IH; assumption.
  Qed.
  Lemma safe_threads {A} (Qs : nat -> res A -> Prop) sched : forall st : @state A, Inv (fst st) -> (forall i p, nth_error (snd st) i = Some p -> safe (Qs i) p) ->
    Inv (fst (interleave sched st)) /\ (forall i p, nth_error (snd (interleave sched st)) i = Some p -> safe (Qs i) p).
  Proof.
    induction sched as [|j sched IH]; intros [w ts] Hw Hs; [split; assumption|]. cbn [interleave fold_left]. apply IH; unfold step_thread; cbn [fst snd] in *.
    - destruct (nth_error ts j) as [[r|f]|] eqn:E; try exact Hw. pose proof (Hs j _ E w Hw) as H. destruct (f w) as [w' p']. apply H.
    - intros i p. destruct (nth_error ts j) as [[r|f]|] eqn:E; try apply Hs. pose proof (Hs j _ E w Hw) as H. destruct (f w) as [w' p'] eqn:Ef. cbn [snd].
      rewrite nth_lput. destruct (Nat.eqb_spec j i) as [<-|]; [|apply Hs]. rewrite E. intros [= <-]. apply H.
  Qed.
  Lemma safe_atom {A} (Q : res A -> Prop) (m : M A) : (forall w, Inv w -> Inv (fst (m w)) /\ Q (snd (m w))) -> safe Q (atom m).
  Proof. intros H w Hw. specialize (H w Hw). destruct (m w) as [w' r]. exact H. Qed.
End Safe.

Lemma thread_alone auth dig strx fetch s depth j w : alone (thread auth dig strx fetch s depth j) w = by_itself auth dig strx fetch s depth j w.
Proof.
  destruct j as [|text]; cbn [thread by_itself]; [apply value_alone|]. unfold query_text. rewrite alone_bind. unfold mbind, lift. cbn [alone].
  destruct (pointer_parse text) as [p| |]; [apply exec_alone|reflexivity..].
Qed.

Section Load.
  Variables (auth : pystr -> option authority) (dig : N -> option Z) (strx : heap -> addr -> pystr) (fetch : uri -> res pv).
  Variables (w0 : world) (s : nat) (x0 : schema).
  Hypothesis Hx : nth_error (w_schemas w0) s = Some x0.
  Notation root := (s_value x0).
  Notation h0 := (w_heap w0).
  Notation st0 := (w_store w0).
  Notation texec := (t_exec auth dig strx fetch).
  Definition norec : forall A, call A -> prog A := fun _ _ => Done OutOfFuel.
  (** the text of the document's identifier *)
  Definition txt : res pystr := snd (alone (t_id_text strx norec root) w0).
  Definition now (b : bool) (i : option uri) : list schema := lput (w_schemas w0) s (Schema root b (s_voc x0) (s_anchors x0) i).
  Definition own_id (i : option uri) : Prop := exists t v, txt = Ok t /\ mk_uri auth t = Ok v /\ i = Some v.
  Definition own_entry (st : list (pystr * nat)) : Prop := exists t v k,
    txt = Ok t /\ mk_uri auth t = Ok v /\ is_absolute auth v = Ok true /\ key_of auth v = Ok k /\ dget k st0 = None /\ st = dset k s st0.
  Definition Inv (good : Prop) (w : world) : Prop :=
    w_heap w = h0 /\
    (exists b i, w_schemas w = now b i /\ (b = s_ready x0 \/ (b = true /\ good)) /\ (i = s_id x0 \/ own_id i)) /\
    (w_store w = st0 \/ own_entry (w_store w)).
  Lemma Inv_0 good : Inv good w0.
  Proof.
    split; [reflexivity|split; [|left; reflexivity]]. exists (s_ready x0), (s_id x0). split; [|split; left; reflexivity].
    unfold now. clear -Hx. destruct x0 as [a b c e f]. cbn. revert s Hx. induction (w_schemas w0) as [|y ss IH]; intros [|i] H; cbn in *; try discriminate; [injection H as <-; reflexivity|]. rewrite <- IH by exact H. reflexivity.
  Qed.
  Lemma now_nth b i : nth_error (now b i) s = Some (Schema root b (s_voc x0) (s_anchors x0) i).
  Proof. unfold now. rewrite nth_lput, Nat.eqb_refl, Hx. reflexivity. Qed.
  Lemma lput_lput {A} (l : list A) j a b : lput (lput l j a) j b = lput l j b.
  Proof. revert j; induction l as [|y l IH]; intros [|j]; cbn; congruence. Qed.
  Lemma now_put b i y : lput (now b i) s y = lput (w_schemas w0) s y.
  Proof. apply lput_lput. Qed.

  Section Good.
    Variable good : Prop.
    Notation safe := (safe (Inv good)).
    Lemma safe_peek a n : hget h0 a = Some n -> safe (eq (Ok n)) (peek a).
    Proof. intro H. apply safe_atom. intros w I. destruct I as (E & I). unfold node_at. rewrite E, H. split; [split; assumption|reflexivity]. Qed.
    Lemma safe_read {A} (f : schema -> A) (Q : res A -> Prop) :
      (forall b i, (b = s_ready x0 \/ (b = true /\ good)) -> Q (Ok (f (Schema root b (s_voc x0) (s_anchors x0) i)))) -> safe Q (read s f).
    Proof.
      intro H. apply safe_atom. intros w I. pose proof I as (_ & (b & i & E & B & _) & _). rewrite E, now_nth. split; [exact I|]. cbn [snd]. apply H, B.
    Qed.
    Lemma safe_then {A B} (Q : res B -> Prop) (a : A) p k : safe (eq (Ok a)) p -> safe Q (k a) -> safe Q (pbind p k).
    Proof. intros Hp Hk. apply safe_bind. eapply safe_weaken; [|exact Hp]. intros r <-. exact Hk. Qed.
    Lemma safe_exn {A B} e (p : prog A) (k : A -> prog B) : safe (eq (Raise e)) p -> safe (eq (Raise e)) (pbind p k).
    Proof. intros Hp. apply safe_bind. eapply safe_weaken; [|exact Hp]. intros r <-. reflexivity. Qed.
    Lemma safe_type rec a p : val h0 a p -> is_ref p = false -> safe (eq (Ok (kind_of p))) (t_type rec a).
    Proof.
      intros (n & Hn & <-) Hr. unfold t_type. eapply safe_then; [apply safe_peek, Hn|]. destruct (n_val n); try discriminate; reflexivity.
    Qed.
    Lemma safe_items rec a d : val h0 a (PObj d) -> safe (eq (Ok d)) (t_items rec a).
    Proof. intros (n & Hn & E). unfold t_items. eapply safe_then; [apply safe_peek, Hn|]. rewrite E. reflexivity. Qed.
    Lemma safe_has rec a d k : val h0 a (PObj d) -> safe (eq (Ok (dict_has d k))) (t_has rec a k).
    Proof. intros (n & Hn & E). unfold t_has. eapply safe_then; [apply safe_peek, Hn|]. rewrite E. reflexivity. Qed.
    Lemma safe_get rec a d k : val h0 a (PObj d) -> safe (eq (dict_get d k)) (t_get rec a k).
    Proof.
      intros (n & Hn & E). unfold t_get. eapply safe_then; [apply safe_peek, Hn|]. rewrite E. destruct (dict_has d k); [|reflexivity].
      eapply safe_then; [apply safe_peek, Hn|]. rewrite E. reflexivity.
    Qed.
    Lemma safe_get_arr rec a l z : val h0 a (PArr l) -> safe (eq (index l z)) (t_get rec a (KI z)).
    Proof. intros (n & Hn & E). unfold t_get. eapply safe_then; [apply safe_peek, Hn|]. rewrite E. reflexivity. Qed.
    Definition text_of (c : addr) : pystr := match hget h0 c with Some (Node (PStr t) _ _) => t | _ => strx h0 c end.
    Lemma safe_str c n : hget h0 c = Some n -> safe (eq (Ok (text_of c))) (t_str strx c).
    Proof.
      intro H. apply safe_atom. intros w I. pose proof I as (E & _). unfold node_str, text_of. rewrite E, H. destruct n as [[] ? ?]; split; try exact I; reflexivity.
    Qed.
    Lemma safe_member rec a d k c n : val h0 a (PObj d) -> dget k d = Some c -> hget h0 c = Some n -> safe (eq (Ok (text_of c))) (t_member_str strx rec a k).
    Proof.
      intros V G H. unfold t_member_str. eapply safe_then; [|eapply safe_str, H]. pose proof (safe_get rec a d (KS k) V) as K. cbn [dict_get] in K. rewrite G in K. exact K.
    Qed.
    Lemma safe_any_has rec a d ks : val h0 a (PObj d) -> safe (eq (Ok (existsb (fun k => dmem k d) ks))) (t_any_has rec a ks).
    Proof.
      intro V. induction ks as [|k ks IH]; [reflexivity|]. cbn [t_any_has existsb]. eapply safe_then; [apply (safe_has rec a d (KS k) V)|]. cbn [dict_has].
      destruct (dmem k d); [reflexivity|exact IH].
    Qed.
    Lemma safe_set a d : val h0 a (PObj d) -> safe (eq (Ok tt)) (atom (set_value a (PObj d))).
    Proof.
      intro V. apply safe_atom. intros w I. pose proof I as (E & _). unfold set_value. rewrite E, (hset_same _ _ _ V), <- E. split; [destruct w; exact I|reflexivity].
    Qed.
    (** keywords that are not applied *)
    Lemma safe_unapplied rec a d voc : val h0 a (PObj d) -> Forall (fun ka => ~ In (fst ka) (triggers voc)) d ->
      safe (eq (Ok a)) (t_apply_kws auth strx fetch rec voc s a).
    Proof.
      unfold triggers. intros V F. induction voc as [|k voc IH]; [reflexivity|]. cbn [t_apply_kws map List.concat] in *.
      eapply safe_then; [apply (safe_any_has rec a d _ V)|].
      assert (E : existsb (fun n => dmem n d) (kw_names k) = false).
      { destruct (existsb _ _) eqn:E; [|reflexivity]. apply existsb_exists in E as (n & Hn & Hm). apply dmem_In in Hm. unfold dkeys in Hm. apply in_map_iff in Hm as ([n' c] & <- & Hin). rewrite Forall_forall in F. destruct (F _ Hin). apply in_or_app. left. exact Hn. }
      rewrite E. eapply safe_then; [reflexivity|]. apply IH. eapply Forall_impl; [|exact F]. intros ka Hk Hi. apply Hk, in_or_app. right. exact Hi.
    Qed.
  End Good.

  (** the outcome is the same whatever other threads do, if calls are deep enough *)
  Definition det {A} (p : nat -> prog A) (r : res A) : Prop :=
    exists m, forall good n, m <= n -> safe (Inv good) (eq r) (p n).
  Lemma det_always {A} (p : nat -> prog A) r : (forall good n, safe (Inv good) (eq r) (p n)) -> det p r.
  Proof. intro H. exists 0. intros. apply H. Qed.
  Lemma det_then {A B} (p : nat -> prog A) a (k : nat -> A -> prog B) r : det p (Ok a) -> det (fun n => k n a) r -> det (fun n => pbind (p n) (k n)) r.
  Proof.
    intros [m1 H1] [m2 H2]. exists (m1 + m2). intros good n Hn. eapply safe_then; [apply H1; lia|apply H2; lia].
  Qed.
  Lemma det_exn {A B} (p : nat -> prog A) e (k : nat -> A -> prog B) : det p (Raise e) -> det (fun n => pbind (p n) (k n)) (Raise e).
  Proof. intros [m H]. exists m. intros good n Hn. eapply safe_exn, H, Hn. Qed.
  Lemma det_step {A} (c : call A) r : det (fun n => t_step auth dig strx fetch (texec n) A c) r -> det (fun n => texec n A c) r.
  Proof. intros [m H]. exists (S m). intros good [|n] Hn; [lia|]. apply H. lia. Qed.
  Lemma det_type a p : val h0 a p -> is_ref p = false -> det (fun n => texec n jtype (CType a)) (Ok (kind_of p)).
  Proof. intros V R. apply det_step. apply det_always. intros. apply safe_type; assumption. Qed.

  Lemma held_node a v : holds h0 a v -> exists n, hget h0 a = Some n /\ is_ref (n_val n) = false.
  Proof.
    intro H. inversion H as [? V|? ? V|? ? V|? ? ? V|? ? ? V|? ? ? V|? ? ? V|? ? ? V]; subst; destruct V as (n & Hn & E); exists n; rewrite E; split; try assumption; reflexivity.
  Qed.
  Lemma held_dget its d k c : Forall2 (fun ka kx => fst ka = fst kx /\ holds h0 (snd ka) (snd kx)) its d -> dget k its = Some c -> exists x, In (k, x) d /\ holds h0 c x.
  Proof.
    intro F. induction F as [|[k1 c1] [k2 x2] its d [E1 E2] F IH]; [discriminate|]. cbn [fst snd] in *. subst k2. cbn [dget].
    destruct (str_eqb k k1) eqn:E; [|intro G; destruct (IH G) as (x & Hi & Hh); exists x; split; [right|]; assumption].
    intros [= <-]. apply str_eqb_eq in E as ->. exists x2. split; [left; reflexivity|exact E2].
  Qed.
  Lemma process_plain v : forall a, holds h0 a v -> without (triggers (s_voc x0)) v -> det (fun n => texec n addr (CProcess s a)) (Ok a).
  Proof.
    induction v as [v Hl Hd|l IH|d IH] using pv_ind_deep; intros a H F; apply det_step; cbn [t_step]; unfold t_process.
    - assert (K : exists p, val h0 a p /\ is_ref p = false /\ kind_of p <> JObj).
      { inversion H as [? V|? ? V|? ? V|? ? ? V|? ? ? V|? ? ? V|? ? ? V|? ? ? V]; subst; try (exfalso; eapply Hd; reflexivity); eexists; (split; [exact V|split; [reflexivity|discriminate]]). }
      destruct K as (p & V & R & K). eapply det_then; [apply det_type; eassumption|]. destruct (kind_of p); try congruence; apply det_always; intros; reflexivity.
    - inversion H as [| | | | | |? ? els V Fe|]; subst. eapply det_then; [apply (det_type a _ V eq_refl)|]. apply det_always; intros; reflexivity.
    - inversion H as [| | | | | | |? ? its V Fe]; subst. inversion F as [? C|? Fd]; subst; [exfalso; eapply C; reflexivity|].
      eapply det_then; [apply (det_type a _ V eq_refl)|]. cbn [kind_of]. eapply det_then; [apply det_always; intros; apply (safe_items _ _ _ _ V)|].
      assert (K : det (fun n => t_map (fun kx => pbind (texec n addr (CProcess s (snd kx))) (fun c => Done (Ok (fst kx, c)))) its) (Ok its)).
      { clear V H F. revert its Fe. induction Fd as [|[k2 y] d [_ Hy] Fd IHd]; intros its Fe; inversion Fe as [|[k1 c] ? its' ? [E1 E2] Fe']; subst; [apply det_always; intros; reflexivity|].
        inversion IH as [|? ? I1 I2]; subst. cbn [t_map]. cbn [fst snd] in *.
        eapply det_then with (a := (k1, c)); [eapply det_then; [eapply I1; eassumption|apply det_always; intros; reflexivity]|].
        eapply det_then; [apply IHd; assumption|apply det_always; intros; reflexivity]. }
      eapply det_then; [exact K|]. pose proof V as (n & Hn & En). apply det_always. intros good m. eapply safe_then; [apply safe_peek, Hn|]. rewrite En.
      eapply safe_then; [apply (safe_set _ _ _ V)|]. eapply safe_then; [apply (safe_read good s_voc (eq (Ok (s_voc x0)))); intros; reflexivity|].
      apply safe_unapplied with (d := its); [exact V|].
      clear -Fe Fd. revert its Fe. induction Fd as [|[k2 y] d [Hk _] Fd IHd]; intros its Fe; inversion Fe as [|[k1 c] ? its' ? [E1 E2] Fe']; subst; constructor; [cbn in *; congruence|auto].
  Qed.

  (** the identifier of the document *)
  Lemma safe_put_id good t v : txt = Ok t -> mk_uri auth t = Ok v -> safe (Inv good) (eq (Ok tt)) (put_id s v).
  Proof.
    intros Ht Hv. apply safe_atom. intros w (E & (b & i & Es & B & _) & St). rewrite Es, now_nth. split; [|reflexivity].
    cbn [fst]. split; [exact E|split; [|exact St]]. exists b, (Some v). cbn [w_schemas s_value s_ready s_voc s_anchors]. rewrite now_put. split; [reflexivity|]. split; [exact B|]. right. exists t, v. auto.
  Qed.
  Lemma dset_dset {A} k (x : A) d : dset k x (dset k x d) = dset k x d.
  Proof.
    induction d as [|[k1 y] d IH]; cbn [dset]; [rewrite str_eqb_refl; reflexivity|]. destruct (str_eqb k k1) eqn:E; cbn [dset]; rewrite E; [reflexivity|]. rewrite IH. reflexivity.
  Qed.
  Definition verdict (v : uri) : res addr :=
    match key_of auth v with
    | Ok k => match dget k st0 with
              | Some _ => Ok root
              | None => match is_absolute auth v with Ok true => Ok root | Ok false => Raise EValue | Raise e => Raise e | OutOfFuel => OutOfFuel end
              end
    | Raise e => Raise e
    | OutOfFuel => OutOfFuel
    end.
  Lemma safe_register good t v : txt = Ok t -> mk_uri auth t = Ok v ->
    safe (Inv good) (eq (verdict v)) (pbind (t_contains auth v) (fun b => pbind (if b : bool then Done (Ok tt) else t_add auth v s) (fun _ => Done (Ok root)))).
  Proof.
    intros Ht Hv. unfold verdict, t_contains. destruct (key_of auth v) as [k|e|] eqn:Ek; [|reflexivity|reflexivity]. cbn [pbind].
    destruct (dget k st0) as [o|] eqn:G.
    - apply safe_bind, safe_bind. apply safe_atom. intros w I. split; [exact I|]. cbn [snd].
      assert (D : exists o', dget k (w_store w) = Some o').
      { pose proof I as (_ & _ & [E|(t' & v' & k' & _ & _ & _ & _ & Hn & E)]); rewrite E; [eauto|]. rewrite dget_dset. destruct (str_eqb k k'); eauto. }
      destruct D as (o' & ->). reflexivity.
    - apply safe_bind, safe_bind. apply safe_atom. intros w I. split; [exact I|]. cbn [snd].
      assert (D : dget k (w_store w) = None \/ is_absolute auth v = Ok true).
      { pose proof I as (_ & _ & [E|(t' & v' & k' & T' & V' & A' & K' & Hn & E)]); [left; rewrite E; exact G|]. right. congruence. }
      destruct (dget k (w_store w)) as [o'|] eqn:Go.
      + destruct D as [D|D]; [discriminate|]. rewrite D. reflexivity.
      + cbn [LoadThreads.pbind PropsLoadThreads.safe]. apply safe_bind. unfold t_add. destruct (is_absolute auth v) as [[]|e|] eqn:A; try reflexivity.
        cbn [pbind]. rewrite Ek. cbn [pbind]. apply safe_atom. clear w I Go D. intros w (Eh & Es & St). unfold store_put. split; [|reflexivity]. cbn [fst].
        split; [exact Eh|split; [exact Es|]]. right. cbn [w_store]. exists t, v, k. repeat (split; [assumption|]).
        destruct St as [->|(t' & v' & k' & T' & V' & A' & K' & Hn & ->)]; [reflexivity|]. assert (k' = k) as -> by congruence. apply dset_dset.
  Qed.
  Section Root.
    Variables (V : pv) (n0 : node).
    Hypothesis Hh : holds h0 root V.
    Hypothesis Hu : unreferenced (s_voc x0) V.
    Hypothesis Hn0 : hget h0 root = Some n0.
    Hypothesis Hp0 : n_parent n0 = None.

    Lemma id_text_safe its d : val h0 root (PObj its) -> Forall2 (fun ka kx => fst ka = fst kx /\ holds h0 (snd ka) (snd kx)) its d ->
      existsb (fun k => dmem k its) (kw_names AKId) = true -> exists t, txt = Ok t /\ forall good rec, safe (Inv good) (eq (Ok t)) (t_id_text strx rec root).
    Proof.
      intros Vr Fe Hid.
      assert (K : exists t, forall good rec, safe (Inv good) (eq (Ok t)) (t_id_text strx rec root)).
      { cbn [kw_names existsb] in Hid. rewrite orb_false_r in Hid. unfold t_id_text. destruct (dmem (u "$id") its) eqn:M1.
        - rewrite dmem_get in M1. destruct (dget (u "$id") its) as [c|] eqn:G; [|discriminate]. destruct (held_dget _ _ _ _ Fe G) as (x & _ & Hc). destruct (held_node _ _ Hc) as (n & Hn & _).
          exists (text_of c). intros good rec. eapply safe_then; [apply (safe_has good rec root its (KS (u "$id")) Vr)|]. cbn [dict_has]. rewrite dmem_get, G. eapply safe_member; eassumption.
        - cbn [orb] in Hid. rewrite dmem_get in Hid. destruct (dget (u "id") its) as [c|] eqn:G; [|discriminate]. destruct (held_dget _ _ _ _ Fe G) as (x & _ & Hc). destruct (held_node _ _ Hc) as (n & Hn & _).
          exists (text_of c). intros good rec. eapply safe_then; [apply (safe_has good rec root its (KS (u "$id")) Vr)|]. cbn [dict_has]. rewrite M1. eapply safe_member; eassumption. }
      destruct K as (t & K). exists t. split; [|exact K]. unfold txt. symmetry. apply (safe_alone (Inv True) _ _ (K True norec) w0 (Inv_0 True)).
    Qed.
    Lemma mk_uri_ends t : mk_uri auth t <> OutOfFuel.
    Proof. unfold mk_uri, mk_authority. destruct (re_match uri_regex t) as [cs|]; [|discriminate]. destruct (got 2 cs); cbn; try destruct (auth _); discriminate. Qed.
    Lemma base_uri_ends v : base_uri auth v <> OutOfFuel.
    Proof. unfold base_uri, copy_with. cbn. discriminate. Qed.
    Lemma apply_kws_root its d : val h0 root (PObj its) -> Forall2 (fun ka kx => fst ka = fst kx /\ holds h0 (snd ka) (snd kx)) its d ->
      forall voc, (forall k x, In (k, x) d -> In k (triggers voc) -> k = u "$id" \/ k = u "id") ->
      exists r, (r = Ok root \/ exists e, r = Raise e) /\ forall good rec, safe (Inv good) (eq r) (t_apply_kws auth strx fetch rec voc s root).
    Proof.
      intros Vr Fe voc. unfold triggers. induction voc as [|k voc IH]; intro Ht; [exists (Ok root); split; [left; reflexivity|reflexivity]|].
      cbn [map List.concat] in Ht. destruct IH as (r & Hr & IH); [intros k' x Hi Ho; eapply Ht; [exact Hi|apply in_or_app; right; exact Ho]|].
      cbn [t_apply_kws].
      destruct (existsb (fun n => dmem n its) (kw_names k)) eqn:E.
      - assert (k = AKId) as ->.
        { apply existsb_exists in E as (n & Hn & Hm). rewrite dmem_get in Hm. destruct (dget n its) as [c|] eqn:G; [|discriminate]. destruct (held_dget _ _ _ _ Fe G) as (x & Hi & _).
          specialize (Ht _ _ Hi (in_or_app _ _ _ (or_introl Hn))). destruct k; [| |reflexivity]; cbn in Hn; destruct Hn as [<-|[]]; destruct Ht as [Ht|Ht]; vm_compute in Ht; discriminate Ht. }
        destruct (id_text_safe its d Vr Fe E) as (t & Tx & Hid).
        assert (K : exists r1, (r1 = Ok root \/ exists e, r1 = Raise e) /\ forall good rec, safe (Inv good) (eq r1) (t_apply_id auth strx rec s root)).
        { unfold t_apply_id. destruct (mk_uri auth t) as [v|e|] eqn:Ev.
          - destruct (u_frag v) as [|c f] eqn:Ef.
            + exists (verdict v). split.
              * unfold verdict. destruct (key_of auth v) as [kk|e|] eqn:Ek; [|right; eauto|exfalso].
                -- destruct (dget kk st0); [left; reflexivity|]. destruct (is_absolute auth v) as [[]|e|] eqn:Ea; [left; reflexivity|right; eauto|right; eauto|exfalso].
                   unfold is_absolute, copy_with in Ea. discriminate Ea.
                -- unfold key_of, bind in Ek. pose proof (base_uri_ends v). destruct (base_uri auth v); [discriminate|discriminate|congruence].
              * intros good rec. eapply safe_then; [apply Hid|]. rewrite Ev. cbn [pbind]. rewrite Ef. eapply safe_then; [apply safe_peek, Hn0|]. rewrite Hp0.
                eapply safe_then; [eapply safe_put_id; eassumption|]. eapply safe_register; eassumption.
            + exists (Raise EValue). split; [right; eauto|]. intros good rec. eapply safe_then; [apply Hid|]. rewrite Ev. cbn [pbind]. rewrite Ef. reflexivity.
          - exists (Raise e). split; [right; eauto|]. intros good rec. eapply safe_then; [apply Hid|]. rewrite Ev. reflexivity.
          - destruct (mk_uri_ends _ Ev). }
        destruct K as (r1 & [->|(e & ->)] & K).
        + exists r. split; [exact Hr|]. intros good rec. eapply safe_then; [apply (safe_any_has good rec root its _ Vr)|]. rewrite E. eapply safe_then; [apply K|apply IH].
        + exists (Raise e). split; [right; eauto|]. intros good rec. eapply safe_then; [apply (safe_any_has good rec root its _ Vr)|]. rewrite E. eapply safe_exn, K.
      - exists r. split; [exact Hr|]. intros good rec. eapply safe_then; [apply (safe_any_has good rec root its _ Vr)|]. rewrite E. eapply safe_then; [reflexivity|apply IH].
    Qed.
    Lemma process_root : exists r, (r = Ok root \/ exists e, r = Raise e) /\ det (fun n => texec n addr (CProcess s root)) r.
    Proof.
      assert (EV : (exists d, V = VDict d) \/ (forall d, V <> VDict d)) by (destruct V; [right; discriminate..|left; eauto]).
      destruct EV as [(d & EV)|EV].
      - assert (Hd : exists its, val h0 root (PObj its) /\ Forall2 (fun ka kx => fst ka = fst kx /\ holds h0 (snd ka) (snd kx)) its d).
        { generalize Hh. rewrite EV. clear. intro H. inversion H as [| | | | | | |? ? its Vr Fe]; subst. eauto. }
        destruct Hd as (its & Vr & Fe).
        destruct (apply_kws_root its d Vr Fe (s_voc x0)) as (r & Hr & K); [intros k x Hi; apply (Hu d EV k x Hi)|].
        exists r. split; [exact Hr|]. apply det_step. cbn [t_step]. unfold t_process.
        eapply det_then; [apply (det_type root _ Vr eq_refl)|]. cbn [kind_of]. eapply det_then; [apply det_always; intros; apply (safe_items _ _ _ _ Vr)|].
        assert (Km : det (fun n => t_map (fun kx => pbind (texec n addr (CProcess s (snd kx))) (fun c => Done (Ok (fst kx, c)))) its) (Ok its)).
        { assert (W : Forall (fun kx => without (triggers (s_voc x0)) (snd kx)) d) by (apply Forall_forall; intros [k x] Hi; apply (Hu d EV k x Hi)).
          clear -Fe W Hx. revert its Fe. induction W as [|[k2 y] d Hy Fd IHd]; intros its Fe; inversion Fe as [|[k1 c] ? its' ? [E1 E2] Fe']; subst; [apply det_always; intros; reflexivity|].
          cbn [t_map]. cbn [fst snd] in *.
          eapply det_then with (a := (k1, c)); [eapply det_then; [eapply process_plain; eassumption|apply det_always; intros; reflexivity]|].
          eapply det_then; [apply IHd; assumption|apply det_always; intros; reflexivity]. }
        eapply det_then; [exact Km|]. pose proof Vr as (n & Hn & En). apply det_always. intros good m. eapply safe_then; [apply safe_peek, Hn|]. rewrite En.
        eapply safe_then; [apply (safe_set _ _ _ Vr)|]. eapply safe_then; [apply (safe_read good s_voc (eq (Ok (s_voc x0)))); intros; reflexivity|]. apply K.
      - exists (Ok root). split; [left; reflexivity|]. eapply process_plain; [exact Hh|apply wo_leaf; exact EV].
    Qed.
    Lemma follow_det p : forall a v, holds h0 a v -> exists r, r <> OutOfFuel /\ det (fun n => t_follow dig (texec n) a p) r.
    Proof.
      induction p as [|k p IH]; intros a v H; [exists (Ok a); split; [discriminate|apply det_always; reflexivity]|]. cbn [t_follow].
      assert (K : (exists q, val h0 a q /\ is_ref q = false /\ kind_of q <> JObj /\ kind_of q <> JArr) \/ (exists els l, val h0 a (PArr els) /\ Forall2 (holds h0) els l) \/
        (exists its d, val h0 a (PObj its) /\ Forall2 (fun ka kx => fst ka = fst kx /\ holds h0 (snd ka) (snd kx)) its d)).
      { inversion H as [? Va|? ? Va|? ? Va|? ? ? Va|? ? ? Va|? ? ? Va|? ? ? Va|? ? ? Va]; subst; [left; eexists; (split; [exact Va|split; [reflexivity|split; discriminate]])..| |]; right; [left|right]; eauto. }
      destruct K as [(q & Va & Rq & N1 & N2)|[(els & l & Va & Fe)|(its & d & Va & Fe)]].
      - exists (Raise (EKey k)). split; [discriminate|]. eapply det_then; [apply det_type; eassumption|]. destruct (kind_of q); try congruence; apply det_always; intros; reflexivity.
      - destruct (py_int dig k) as [z|] eqn:Ez.
        + destruct (index els z) as [c|e|] eqn:Ei.
          * assert (exists x, holds h0 c x) as (x & Hc).
            { unfold index in Ei. destruct (_ <? 0)%Z in Ei; [discriminate|]. destruct (nth_error els _) as [c'|] eqn:En; [|discriminate]. injection Ei as ->.
              clear -En Fe. revert En. generalize (Z.to_nat (if (z <? 0)%Z then (Z.of_nat (length els) + z)%Z else z)). induction Fe as [|y x els l Hy Fe IH]; intros [|j] En; cbn in En; try discriminate; [injection En as ->; eauto|eauto]. }
            destruct (IH c x Hc) as (r & Hr & D). exists r. split; [exact Hr|]. eapply det_then; [apply (det_type a _ Va eq_refl)|]. cbn [kind_of].
            eapply det_then; [|exact D]. apply det_step, det_always. intros. cbn [t_step]. rewrite <- Ei. apply safe_get_arr, Va.
          * exists (Raise e). split; [discriminate|]. eapply det_then; [apply (det_type a _ Va eq_refl)|]. cbn [kind_of].
            apply det_exn. apply det_step, det_always. intros. cbn [t_step]. rewrite <- Ei. apply safe_get_arr, Va.
          * unfold index in Ei. destruct (_ <? 0)%Z in Ei; [discriminate|]. destruct (nth_error els _); discriminate.
        + exists (Raise EValue). split; [discriminate|]. eapply det_then; [apply (det_type a _ Va eq_refl)|]. apply det_always. reflexivity.
      - destruct (dget k its) as [c|] eqn:G.
        + destruct (held_dget _ _ _ _ Fe G) as (x & _ & Hc). destruct (IH c x Hc) as (r & Hr & D). exists r. split; [exact Hr|].
          eapply det_then; [apply (det_type a _ Va eq_refl)|]. cbn [kind_of]. eapply det_then; [|exact D]. apply det_step, det_always. intros. cbn [t_step].
          pose proof (safe_get good (texec n) a its (KS k) Va) as K. cbn [dict_get] in K. rewrite G in K. exact K.
        + exists (Raise (EKey k)). split; [discriminate|]. eapply det_then; [apply (det_type a _ Va eq_refl)|]. cbn [kind_of]. apply det_exn. apply det_step, det_always. intros. cbn [t_step].
          pose proof (safe_get good (texec n) a its (KS k) Va) as K. cbn [dict_get] in K. rewrite G in K. exact K.
    Qed.

    Section Verdict.
      Variables (rp : res addr) (mp : nat).
      Hypothesis Hrp : rp = Ok root \/ exists e, rp = Raise e.
      Hypothesis Hmp : forall good n, mp <= n -> safe (Inv good) (eq rp) (texec n addr (CProcess s root)).
      Notation I := (Inv (rp = Ok root)).
      Definition rvalue : res addr := if s_ready x0 then Ok root else rp.
      Lemma safe_put_value : safe I (eq (Ok tt)) (put_value s root).
      Proof.
        apply safe_atom. intros w J. pose proof J as (E & (b & i & Es & B & D) & St). rewrite Es, now_nth. split; [|reflexivity].
        cbn [fst]. split; [exact E|split; [|exact St]]. exists b, i. cbn [w_schemas s_value s_ready s_voc s_anchors s_id]. rewrite now_put. auto.
      Qed.
      Lemma safe_put_ready : rp = Ok root -> safe I (eq (Ok tt)) (put_ready s).
      Proof.
        intro G. apply safe_atom. intros w J. pose proof J as (E & (b & i & Es & B & D) & St). rewrite Es, now_nth. split; [|reflexivity].
        cbn [fst]. split; [exact E|split; [|exact St]]. exists true, i. cbn [w_schemas s_value s_ready s_voc s_anchors s_id]. rewrite now_put. auto.
      Qed.
      Lemma safe_value_read : safe I (eq (Ok root)) (read s s_value).
      Proof. apply safe_read. intros. reflexivity. Qed.
      Lemma value_safe n : mp <= n -> safe I (eq rvalue) (t_value (texec n) s).
      Proof.
        intro Hn. unfold t_value, rvalue. apply safe_bind, safe_read. intros b i B. cbn [s_ready]. destruct b.
        - assert (E : (if s_ready x0 then Ok root else rp) = Ok root) by (destruct B as [<-|[_ ->]]; [reflexivity|destruct (s_ready x0); reflexivity]).
          rewrite E. apply safe_value_read.
        - assert (R : s_ready x0 = false) by (destruct B as [<-|[D _]]; [reflexivity|discriminate]). rewrite R. clear B.
          apply safe_bind. unfold t_load. apply safe_bind, safe_read. intros b' i' B. cbn [s_ready]. destruct b'.
          + rewrite R in B. destruct B as [B|[_ G]]; [discriminate|]. cbn [PropsLoadThreads.safe]. eapply safe_weaken; [|apply safe_value_read]. intros r <-. exact G.
          + apply safe_bind. apply (safe_read _ s_value). intros b2 i2 B2. cbn [s_value]. apply safe_bind. eapply safe_weaken; [|apply Hmp, Hn]. intros r Er.
            destruct Hrp as [E|(e & E)]; destruct r; try congruence. assert (a = root) as -> by congruence. eapply safe_then; [apply safe_put_value|]. eapply safe_weaken; [|apply safe_put_ready, E].
            intros r <-. eapply safe_weaken; [|apply safe_value_read]. intros r <-. exact E.
      Qed.
      Lemma query_det p : exists r m, r <> OutOfFuel /\ forall n, m <= n -> safe I (eq r) (texec n addr (CQuery s p)).
      Proof.
        assert (K : exists r m, r <> OutOfFuel /\ forall n, m <= n -> safe I (eq r) (t_query dig (texec n) s p)).
        { unfold t_query. assert (Er : rvalue = Ok root \/ exists e, rvalue = Raise e) by (unfold rvalue; destruct (s_ready x0); auto).
          destruct Er as [Er|(e & Er)].
          - destruct (follow_det p root V Hh) as (rf & Nf & mf & Ff).
            assert (G : exists r, r <> OutOfFuel /\ forall n, mf <= n -> safe I (eq r) (match p with
                [k] => pbind (read s (fun x => dget k (s_anchors x))) (fun o => match o with Some _ => pbind (read s (fun x => dget k (s_anchors x))) (fun o' => match o' with Some a => Done (Ok a) | None => Done (Raise (EKey k)) end)
                   | None => if str_eqb k [] then Done (Ok root) else t_follow dig (texec n) root p end)
              | _ => t_follow dig (texec n) root p end)).
            { destruct p as [|k [|k' p]]; [exists rf; split; [exact Nf|intros; apply Ff; assumption]| |exists rf; split; [exact Nf|intros; apply Ff; assumption]].
              assert (Ra : forall good, safe (Inv good) (eq (Ok (dget k (s_anchors x0)))) (read s (fun x => dget k (s_anchors x)))) by (intro good; apply safe_read; intros; reflexivity).
              destruct (dget k (s_anchors x0)) as [a|] eqn:Ga.
              - exists (Ok a). split; [discriminate|]. intros n Hn. eapply safe_then; [apply Ra|]. eapply safe_then; [apply Ra|]. reflexivity.
              - destruct (str_eqb k []) eqn:Ek.
                + exists (Ok root). split; [discriminate|]. intros n Hn. eapply safe_then; [apply Ra|]. cbn beta iota. reflexivity.
                + exists rf. split; [exact Nf|]. intros n Hn. eapply safe_then; [apply Ra|]. cbn beta iota. apply Ff, Hn. }
            destruct G as (r & Nr & G). exists r, (mp + mf). split; [exact Nr|]. intros n Hn. eapply (safe_then _ _ root); [eapply safe_weaken; [|apply (value_safe n); lia]; intros ? <-; congruence|]. apply G. lia.
          - exists (Raise e), mp. split; [discriminate|]. intros n Hn. eapply safe_exn. eapply safe_weaken; [|apply (value_safe n), Hn]. intros ? <-. congruence. }
        destruct K as (r & m & Nr & K). exists r, (S m). split; [exact Nr|]. intros [|n] Hn; [lia|]. apply K. lia.
      Qed.
      Lemma job_det j : exists r m, r <> OutOfFuel /\ forall n, m <= n -> safe I (eq r) (thread auth dig strx fetch s n j).
      Proof.
        destruct j as [|text].
        - exists rvalue, mp. split; [unfold rvalue; destruct (s_ready x0), Hrp as [->|(e & ->)]; discriminate|]. intros n Hn. apply value_safe, Hn.
        - cbn [thread]. destruct (pointer_parse text) as [p|e|] eqn:E.
          + destruct (query_det p) as (r & m & Nr & K). exists r, m. split; [exact Nr|]. intros n Hn. cbn [pbind]. apply K, Hn.
          + exists (Raise e), 0. split; [discriminate|]. reflexivity.
          + exfalso. revert E. unfold pointer_parse. destruct (re_fullmatch _ _); discriminate.
      Qed.
    End Verdict.
    (** Whatever the number of threads, what they ask and how their steps are
        interleaved: the nodes, the other documents and the anchors stay as they
        are; the document keeps its root; at most the store gains an entry for
        the document; and who is done has what it had got without other threads. *)
    Theorem C101_threads_partial (jobs : list job) : exists m, forall depth, m <= depth -> forall sched,
      let st := interleave sched (w0, map (thread auth dig strx fetch s depth) jobs) in
      (w_heap (fst st) = h0 /\
       (exists ready id, w_schemas (fst st) = lput (w_schemas w0) s (Schema root ready (s_voc x0) (s_anchors x0) id)) /\
       (w_store (fst st) = st0 \/ exists k, dget k st0 = None /\ w_store (fst st) = dset k s st0)) /\
      forall i j r, nth_error jobs i = Some j -> outcome st i = Some r ->
        r = snd (by_itself auth dig strx fetch s depth j w0) /\ r <> OutOfFuel.
    Proof.
      destruct process_root as (rp & Hrp & mp & Hmp).
      assert (D : exists m, forall depth, m <= depth -> forall j, In j jobs -> exists r, r <> OutOfFuel /\ safe (Inv (rp = Ok root)) (eq r) (thread auth dig strx fetch s depth j)).
      { induction jobs as [|j js IH]; [exists 0; intros ? ? ? []|]. destruct IH as (m1 & H1). destruct (job_det rp mp Hrp Hmp j) as (r & m2 & Nr & H2).
        exists (m1 + m2). intros depth Hd j' [<-|Hi]; [exists r; split; [exact Nr|apply H2; lia]|apply H1; [lia|exact Hi]]. }
      destruct D as (m & D). exists m. intros depth Hd sched st. specialize (D depth Hd).
      set (Qs := fun i r => exists j, nth_error jobs i = Some j /\ r = snd (by_itself auth dig strx fetch s depth j w0) /\ r <> OutOfFuel).
      destruct (safe_threads (Inv (rp = Ok root)) Qs sched (w0, map (thread auth dig strx fetch s depth) jobs)) as (I & S); [apply Inv_0| |].
      - cbn [snd]. intros i p Hp. rewrite nth_error_map in Hp. destruct (nth_error jobs i) as [j|] eqn:Ej; [|discriminate]. injection Hp as <-.
        destruct (D j (nth_error_In _ _ Ej)) as (r & Nr & K). eapply safe_weaken; [|exact K]. intros r' <-. exists j. split; [exact Ej|]. split; [|exact Nr].
        rewrite <- (thread_alone auth dig strx fetch s depth j w0). apply (safe_alone _ _ _ K w0 (Inv_0 _)).
      - fold st in I, S. split.
        + destruct I as (E & (b & i & Es & _) & St). split; [exact E|]. split; [exists b, i; exact Es|]. destruct St as [->|(t & v & k & _ & _ & _ & _ & G & E')]; [left; reflexivity|right; exists k; auto].
        + intros i j r Hj Ho. unfold outcome in Ho. destruct (nth_error (snd st) i) as [[r'|]|] eqn:E; try discriminate. injection Ho as ->.
          destruct (S i _ E) as (j' & Ej & H). rewrite Hj in Ej. injection Ej as <-. exact H.
    Qed.
  End Root.
End Load.
(** A thread that is not interrupted does what [Doc.v] says. *)
Theorem C101_alone auth dig strx fetch s depth j w : alone (thread auth dig strx fetch s depth j) w = by_itself auth dig strx fetch s depth j w.
Proof. apply thread_alone. Qed.

(** ** Every thread comes to an end *)
Section Finish.
  Context {A : Type}.
  (** the first [n] steps of an endless schedule *)
  Definition steps_of (sched : nat -> nat) (n : nat) : list nat := map sched (seq 0 n).
  (** the schedule gives thread [i] a turn again and again *)
  Definition keeps_going (sched : nat -> nat) (i : nat) : Prop := forall m, exists n, m <= n /\ sched n = i.
  Lemma interleave_S (sched : nat -> nat) n (st : @state A) :
    interleave (steps_of sched (S n)) st = step_thread (interleave (steps_of sched n) st) (sched n).
  Proof. unfold interleave, steps_of. rewrite seq_S, map_app, fold_left_app. reflexivity. Qed.
  Lemma other_thread (st : @state A) i j : i <> j -> nth_error (snd (step_thread st j)) i = nth_error (snd st) i.
  Proof.
    intro Hij. unfold step_thread. destruct st as [w ts]. destruct (nth_error ts j) as [[r|f]|]; try reflexivity.
    destruct (f w) as [w' p']. cbn [snd]. rewrite nth_lput. destruct (Nat.eqb_spec j i); [congruence|reflexivity].
  Qed.
  Lemma own_thread (st : @state A) i f : nth_error (snd st) i = Some (Act f) ->
    nth_error (snd (step_thread st i)) i = Some (snd (f (fst st))).
  Proof.
    intro H. unfold step_thread. destruct st as [w ts]. cbn [fst snd] in *. rewrite H.
    destruct (f w) as [w' p']. cbn [snd]. rewrite nth_lput, Nat.eqb_refl, H. reflexivity.
  Qed.
  Lemma next_turn sched i (st : @state A) f m : keeps_going sched i ->
    nth_error (snd (interleave (steps_of sched m) st)) i = Some (Act f) ->
    exists n w, nth_error (snd (interleave (steps_of sched n) st)) i = Some (snd (f w)).
  Proof.
    intros Hk. destruct (Hk m) as (n & Hmn & Hn). remember (n - m) as d eqn:Hd.
    revert m Hmn Hd. induction d as [|d IH]; intros m Hmn Hd Hp.
    - assert (m = n) as -> by lia. exists (S n), (fst (interleave (steps_of sched n) st)).
      rewrite interleave_S, Hn. apply own_thread. exact Hp.
    - destruct (Nat.eq_dec (sched m) i) as [He|He].
      + exists (S m), (fst (interleave (steps_of sched m) st)). rewrite interleave_S, He. apply own_thread. exact Hp.
      + apply (IH (S m)); [lia|lia|]. rewrite interleave_S, other_thread by congruence. exact Hp.
  Qed.
  (** No interleaving keeps a thread from its end, whatever the document: one
      that gets its turn again and again is done at some point. *)
  Theorem C101_every_thread_ends (sched : nat -> nat) (st : @state A) i :
    keeps_going sched i -> i < length (snd st) ->
    exists n r, outcome (interleave (steps_of sched n) st) i = Some r.
  Proof.
    intros Hk Hi.
    assert (Hgo : forall p m, nth_error (snd (interleave (steps_of sched m) st)) i = Some p ->
      exists n r, outcome (interleave (steps_of sched n) st) i = Some r).
    { induction p as [r|f IH] using prog_ind'; intros m Hp; [exists m, r; unfold outcome; rewrite Hp; reflexivity|].
      destruct (next_turn sched i st _ m Hk Hp) as (n' & w & Hn'). eapply IH, Hn'. }
    destruct (nth_error (snd st) i) as [p|] eqn:Hp; [apply (Hgo p 0); exact Hp|].
    apply nth_error_None in Hp. lia.
  Qed.
End Finish.

(** ** Non-vacuity *)
(** a document with an identifier, an object in it and an array *)
Definition plain_doc : pv :=
  VDict [(u "$id", VStr (u "http://h/s.json"));
         (u "properties", VDict [(u "a", VDict [(u "minimum", VInt 3)])]);
         (u "allOf", VList [VDict [(u "type", VStr (u "object"))]])].
Definition opened (v : pv) : world := fst (make_schema v core (World [] [] [])).
Definition ex_thread := thread toy ex_dig (fun _ _ => []) (fun _ => Raise EFileNotFound).
Definition ex_alone := by_itself toy ex_dig (fun _ _ => []) (fun _ => Raise EFileNotFound).
Lemma untriggered k : existsb (str_eqb k) (triggers core) = false -> ~ In k (triggers core).
Proof. intros H Hi. assert (existsb (str_eqb k) (triggers core) = true); [|congruence]. apply existsb_exists. exists k. split; [exact Hi|apply str_eqb_refl]. Qed.
Example C101_some : exists x n, nth_error (w_schemas (opened plain_doc)) 0 = Some x /\ s_voc x = core /\ s_ready x = false /\ holds (w_heap (opened plain_doc)) (s_value x) plain_doc /\
  unreferenced core plain_doc /\ hget (w_heap (opened plain_doc)) (s_value x) = Some n /\ n_parent n = None.
Proof.
  eexists. eexists. split; [reflexivity|]. split; [reflexivity|]. split; [reflexivity|]. split; [exact (C37_shape [] plain_doc)|].
  split; [|split; reflexivity]. intros d [= <-] k x [[= <- <-]|[[= <- <-]|[[= <- <-]|[]]]].
  - split; [left; reflexivity|apply wo_leaf; discriminate].
  - split; [intro H; exfalso; revert H; apply untriggered; vm_compute; reflexivity|]. apply wo_dict. apply Forall_cons; [|apply Forall_nil]. split; [apply untriggered; vm_compute; reflexivity|].
    apply wo_dict. apply Forall_cons; [|apply Forall_nil]. split; [apply untriggered; vm_compute; reflexivity|]. apply wo_leaf. discriminate.
  - split; [intro H; exfalso; revert H; apply untriggered; vm_compute; reflexivity|]. apply wo_leaf. discriminate.
Qed.
(** three threads that take turns: both queries load the document, and so does
    the third thread *)
Definition asked : list job := [JQuery (u "/properties/a/minimum"); JValue; JQuery (u "/allOf/3")].
Definition three (sched : list nat) := interleave sched (opened plain_doc, map (ex_thread 0 9) asked).
Example C101_turns : let st := three (flat_map (fun _ => [0; 1; 2]) (seq 0 80)) in
  (outcome st 0, outcome st 1, outcome st 2) = (Some (Ok 4), Some (Ok 0), Some (Raise EIndex)) /\
  map (fun j => snd (ex_alone 0 9 j (opened plain_doc))) asked = [Ok 4; Ok 0; Raise EIndex].
Proof. vm_compute. split; reflexivity. Qed.
Example C101_not_all_done : let st := three (flat_map (fun _ => [0; 1; 1; 2]) (seq 0 23)) in
  (outcome st 0, outcome st 1, outcome st 2) = (None, Some (Ok 0), None).
Proof. vm_compute. reflexivity. Qed.

(** ** The violations *)
Definition ref_doc : pv :=
  VDict [(u "properties", VDict [(u "a", VDict [(u "$ref", VStr (u "#/definitions/d"))])]);
         (u "definitions", VDict [(u "d", VDict [(u "type", VStr (u "string"))])])].
Definition anchor_doc : pv := VDict [(u "$anchor", VStr (u "top")); (u "type", VStr (u "object"))].
Definition two (v : pv) (depth : nat) (sched : list nat) := interleave sched (opened v, [ex_thread 0 depth JValue; ex_thread 0 depth JValue]).
(** One of two threads that read [schema.value], which succeeds for one thread
    alone, fails: with [AttributeError], as a reference already stands in the
    document when it assigns to [node._value]; with [KeyError], as the other one
    has deleted [$anchor] after it was seen. *)
Theorem C101_threads_refuted :
  (snd (ex_alone 0 12 JValue (opened ref_doc)) = Ok 0 /\ exists sched, outcome (two ref_doc 12 sched) 0 = Some (Raise EAttr)) /\
  (snd (ex_alone 0 12 JValue (opened anchor_doc)) = Ok 0 /\ exists sched, outcome (two anchor_doc 12 sched) 0 = Some (Raise (EKey (u "$anchor")))).
Proof.
  split; (split; [vm_compute; reflexivity|]).
  - exists (repeat 0 2 ++ repeat 1 90 ++ repeat 0 90). vm_compute. reflexivity.
  - exists (repeat 0 12 ++ repeat 1 90 ++ repeat 0 90). vm_compute. reflexivity.
Qed.

(** *** A thread that comes while another one is loading recurses for ever *)
Lemma run_alone {A} (p : prog A) : forall w i (ts : list (prog A)), nth_error ts i = Some p -> exists n, outcome (interleave (repeat i n) (w, ts)) i = Some (snd (alone p w)).
Proof.
  induction p as [r|f IH] using prog_ind'; intros w i ts H.
  - exists 0. unfold outcome. cbn. rewrite H. reflexivity.
  - cbn [alone]. specialize (IH w). destruct (f w) as [w' p'] eqn:E. cbn [snd] in IH.
    destruct (IH w' i (lput ts i p')) as (n & Hn); [rewrite nth_lput, Nat.eqb_refl, H; reflexivity|]. exists (S n). cbn [repeat interleave fold_left step_thread]. rewrite H, E. exact Hn.
Qed.
Lemma not_its_turn {A} i sched : ~ In i sched -> forall st : @state A, nth_error (snd (interleave sched st)) i = nth_error (snd st) i.
Proof.
  induction sched as [|j sched IH]; intros Hi st; [reflexivity|]. cbn [interleave fold_left]. unfold interleave in IH. rewrite IH by (intro; apply Hi; right; assumption).
  apply other_thread. intros ->. apply Hi. left. reflexivity.
Qed.
Definition midway : world := fst (two ref_doc 12 (repeat 0 33)).
Lemma midway_any n : fst (two ref_doc (12 + n) (repeat 0 33)) = midway.
Proof. vm_compute. reflexivity. Qed.
Lemma midway_schema : nth_error (w_schemas midway) 0 = Some (Schema 0 false core [] None).
Proof. vm_compute. reflexivity. Qed.
Section Loop.
  Variables (auth : pystr -> option authority) (dig : N -> option Z) (strx : heap -> addr -> pystr) (fetch : uri -> res pv).
  Notation exec := (exec auth dig strx fetch).
  Lemma stuck {A B} (m : M A) (k : A -> M B) w w' : m w = (w', OutOfFuel) -> mbind m k w = (w', OutOfFuel).
  Proof. intro H. unfold mbind. rewrite H. reflexivity. Qed.
  Lemma past {A B} (m : M A) (k : A -> M B) w w' a : m w = (w', Ok a) -> mbind m k w = k a w'.
  Proof. intro H. unfold mbind. rewrite H. reflexivity. Qed.
  Lemma stuck_member n s a k c its w : val (w_heap w) a (PObj ((k, c) :: its)) -> exec (S n) addr (CProcess s c) w = (w, OutOfFuel) ->
    exec (S (S n)) addr (CProcess s a) w = (w, OutOfFuel).
  Proof.
    intros V H. change (process auth strx fetch (exec (S n)) s a w = (w, OutOfFuel)). unfold process.
    assert (T : exec (S n) jtype (CType a) w = (w, Ok JObj)) by (destruct V as (m & Hm & E); cbn; unfold node_type, mbind, node_at; rewrite Hm, E; reflexivity).
    rewrite (past _ _ _ _ _ T). rewrite (past _ _ _ _ _ (items_obj _ _ _ _ V)). apply stuck. cbn [mmap]. apply stuck, stuck. exact H.
  Qed.
  Lemma stuck_ref n s a r w : val (w_heap w) a (PRef r) -> exec n addr (CQuery (r_schema r) (r_pointer r)) w = (w, OutOfFuel) ->
    exec (S (S n)) addr (CProcess s a) w = (w, OutOfFuel).
  Proof.
    intros (m & Hm & E) H. change (process auth strx fetch (exec (S n)) s a w = (w, OutOfFuel)). unfold process. apply stuck.
    change (node_type (exec n) a w = (w, OutOfFuel)). unfold node_type. rewrite (past _ _ _ _ _ (node_at_ok _ _ _ Hm)), E. apply stuck, H.
  Qed.
  Lemma stuck_query n s p x w : nth_error (w_schemas w) s = Some x -> s_ready x = false -> exec n addr (CProcess s (s_value x)) w = (w, OutOfFuel) ->
    exec (S n) addr (CQuery s p) w = (w, OutOfFuel).
  Proof.
    intros Hx R H. change (query dig (exec n) s p w = (w, OutOfFuel)). unfold query. apply stuck. unfold load.
    rewrite (past _ _ _ _ _ (schema_at_ok _ _ _ Hx)), R. apply stuck, H.
  Qed.
  Lemma loop n : exec n addr (CProcess 0 0) midway = (midway, OutOfFuel).
  Proof.
    induction n as [n IH] using (well_founded_induction lt_wf). destruct n as [|[|[|[|[|n]]]]]; try reflexivity.
    eapply (stuck_member _ 0 0); [eexists; split; vm_compute; reflexivity|].
    eapply (stuck_member _ 0 1); [eexists; split; vm_compute; reflexivity|].
    eapply (stuck_ref _ 0); [eexists; split; vm_compute; reflexivity|].
    eapply stuck_query; [vm_compute; reflexivity|reflexivity|]. apply IH. lia.
  Qed.
End Loop.
(** However deep calls may go, there is an interleaving in which a thread that
    reads [schema.value] uses them up: it came while the other one was loading,
    and asks the document for the target of a reference, which loads the
    document, which asks for the target of the reference.  (CPython raises
    RecursionError.)  The same call succeeds for one thread alone. *)
Theorem C101_recursion_refuted depth : 12 <= depth ->
  snd (ex_alone 0 depth JValue (opened ref_doc)) = Ok 0 /\
  exists sched, outcome (two ref_doc depth sched) 1 = Some OutOfFuel.
Proof.
  intro Hd. replace depth with (12 + (depth - 12)) by lia. generalize (depth - 12). clear depth Hd. intro n. split; [vm_compute; reflexivity|].
  set (ts := [ex_thread 0 (12 + n) JValue; ex_thread 0 (12 + n) JValue]).
  destruct (two ref_doc (12 + n) (repeat 0 33)) as [w ts'] eqn:E.
  assert (w = midway) as -> by (rewrite <- (midway_any n), E; reflexivity).
  assert (H : nth_error ts' 1 = Some (ex_thread 0 (12 + n) JValue)).
  { change ts' with (snd (midway, ts')). rewrite <- E. unfold two. rewrite not_its_turn; [reflexivity|]. intro Hi. apply repeat_spec in Hi. discriminate. }
  destruct (run_alone _ midway 1 ts' H) as (m & Hm). exists (repeat 0 33 ++ repeat 1 m). unfold two, interleave in *. rewrite fold_left_app, E, Hm. f_equal.
  unfold ex_thread. rewrite thread_alone. cbn [by_itself].
  assert (K : load_n toy ex_dig (fun _ _ => []) (fun _ => Raise EFileNotFound) (12 + n) 0 midway = (midway, OutOfFuel)).
  { unfold load_n, load. rewrite (past _ _ _ _ _ (schema_at_ok _ _ _ midway_schema)). cbn [s_ready s_value]. apply stuck, loop. }
  rewrite (stuck _ _ _ _ K). reflexivity.
Qed.

Print Assumptions C101_threads_partial.
Print Assumptions C101_alone.
Print Assumptions C101_every_thread_ends.
Print Assumptions C101_threads_refuted.
Print Assumptions C101_recursion_refuted.
