(** C99, continued: threads that use a schema whose validators are all there.
    Whatever the schema, with [patternProperties] too, such calls only read. *)
From Verif Require Import PyBase PyBaseFacts PyVal Errors Validators Keywords KeywordFacts Master Claims ExBase Threads ThreadFacts PropsThreads.
From Coq Require Import Lia.
Local Open Scope nat_scope.
Local Notation length := List.length (only parsing).

Section Loaded.
  Context {node : Type} (view : node -> res (nview node)) (strx : node -> pystr) (E : env).
  Variable voc : list akw.
  Notation world := (@world node).
  Notation prog := (@prog node).
  Notation entry := (@entry node).

  (** ** Validators that are loaded *)
  (** two tables with the same names in the same order, and related values *)
  Definition matched {A B} (R : A -> B -> Prop) : list (pystr * A) -> list (pystr * B) -> Prop :=
    Forall2 (fun a b => fst a = fst b /\ R (snd a) (snd b)).
  (** the pattern table [p] of an object validator is the one of the patterns [m] *)
  Definition pattern_table (s : world) (R : lid -> node -> Prop) (p : option pid) (m : option (list (pystr * node))) : Prop :=
    match p, m with
    | Some q, Some pm => matched R (pats s q) pm
    | None, None => True
    | _, _ => False
    end.
  (** the validator [e] is the one [Keywords.compile] has under the same key *)
  Definition stands_for (s : world) (R : lid -> node -> Prop) (e : entry) (o : vobj node node) : Prop :=
    match e with
    | ELeaf x => leafy view E x /\ o = x
    | EObj i =>
        exists x m pm, obj_at s i = Some x /\ o = VObject (ObjV m None pm false None) /\
          matched R (o_props x) m /\ pattern_table s R (o_pats x) pm
    end.
  (** [l] is loaded, and holds what the keywords of [n] make *)
  Definition ready (s : world) (R : lid -> node -> Prop) (l : lid) (n : node) : Prop :=
    exists x d, lazy_at s l = Some x /\ l_loaded x = true /\
      compile view strx E voc n = Ok d /\ matched (stands_for s R) (l_data x) d.
  (** [R] names validators, each with its schema: all are ready, and those they
      lead to are among them *)
  Definition all_ready (s : world) (R : lid -> node -> Prop) : Prop := forall l n, R l n -> ready s R l n.

  (** ** A program that only reads *)
  Inductive quiet (s : world) (r : res unit) : prog -> Prop :=
  | quiet_done : quiet s r (Done r)
  | quiet_step p : fst (step s p) = s -> quiet s r (snd (step s p)) -> quiet s r p.

  Lemma matched_get {A B} (R : A -> B -> Prop) k a b : matched R a b ->
    match dget k a, dget k b with Some x, Some y => R x y | None, None => True | _, _ => False end.
  Proof.
    intro F. induction F as [|[k1 x] [k2 y] a b [Hk H] F IH]; simpl; [exact I|]. simpl in Hk, H. subst k2.
    destruct (str_eqb k k1); assumption.
  Qed.
  Lemma matched_nth {A B} (R : A -> B -> Prop) a b i : matched R a b ->
    match nth_error a i, nth_error b i with
    | Some x, Some y => fst x = fst y /\ R (snd x) (snd y) | None, None => True | _, _ => False end.
  Proof. intro F. revert i. induction F as [|x y a b H F IH]; intros [|i]; [exact I|exact I|exact H|exact (IH i)]. Qed.
  Lemma matched_length {A B} (R : A -> B -> Prop) a b : matched R a b -> length a = length b.
  Proof. intro F. induction F; simpl; auto. Qed.
  Lemma skipn_at {A} (l : list A) i : skipn i l = match nth_error l i with Some x => x :: skipn (S i) l | None => [] end.
  Proof. revert i; induction l as [|x l IH]; intros [|i]; try reflexivity. simpl. rewrite IH. destruct (nth_error l i); reflexivity. Qed.

  Section Run.
    Variable s : world.
    Variable R : lid -> node -> Prop.
    Hypothesis HR : all_ready s R.
    Variable r : res unit.
    Notation quiet := (quiet s r).
    Section Loop.
      Variable f : nat.
      Variable rec : lid -> pv -> ctx -> (res unit -> prog) -> prog.
      Hypothesis Hrec : forall l n v c k, R l n -> quiet (k (validate view strx E voc f n v c)) -> quiet (rec l v c k).
      Notation vrec := (validate view strx E voc f).

      (** whether some pattern applied makes no difference here *)
      Lemma pattern_any m key x c ev ev' :
        (_ <- pattern_loop E vrec m key x c ev ;; Ok tt) = (_ <- pattern_loop E vrec m key x c ev' ;; Ok tt).
      Proof.
        revert ev ev'; induction m as [|[p n] m IH]; intros ev ev'; [reflexivity|]. cbn [pattern_loop].
        destruct (re_ok E p); [|reflexivity]. destruct (re_search E p key); [reflexivity|]. apply IH.
      Qed.
      Lemma quiet_pats q m rem i key x c k : matched R (pats s q) m -> length m = rem + i ->
        quiet (k (_ <- pattern_loop E vrec (skipn i m) key x c false ;; Ok tt)) ->
        quiet (pats_prog E rec rem i q (length m) key x c k).
      Proof.
        intros HM. revert i k. induction rem as [|rem IH]; intros i k Hlen Hk.
        all: cbn [pats_prog]; apply quiet_step; [reflexivity|]; cbn [step snd]; unfold iter_next;
          rewrite (matched_length _ _ _ HM), Nat.eqb_refl; cbn [negb]; pose proof (matched_nth _ _ _ i HM) as Hn; rewrite (skipn_at m i) in Hk.
        - rewrite (proj2 (nth_error_None m i)) in Hn, Hk by lia.
          destruct (nth_error (pats s q) i) as [a|]; [contradiction|]. exact Hk.
        - destruct (nth_error m i) as [[p n]|] eqn:Hm; [|apply nth_error_None in Hm; lia].
          destruct (nth_error (pats s q) i) as [[p' l]|]; [|contradiction]. destruct Hn as [Hp Hl]. cbn [fst snd] in Hp, Hl. subst p'.
          cbn [pattern_loop] in Hk. destruct (re_ok E p); [|exact Hk]. destruct (re_search E p key).
          + apply (Hrec l n); [exact Hl|]. destruct (vrec n x (ctx_add c key)) as [[]|e|]; cbn [andthen bind] in *; [|exact Hk|exact Hk].
            apply IH; [lia|]. rewrite (pattern_any _ _ _ _ false true). exact Hk.
          + apply IH; [lia|exact Hk].
      Qed.
      Lemma quiet_members o y m pm d c k :
        obj_at s o = Some y -> matched R (o_props y) m -> pattern_table s R (o_pats y) pm ->
        quiet (k (for_each (member_validate E vrec (ObjV m None pm false None) c) d)) ->
        quiet (members_prog E rec o d c k).
      Proof.
        intros Ho HM HP. induction d as [|[key x] d IH]; intro Hk; [exact Hk|].
        cbn [members_prog]. apply quiet_step; [reflexivity|]. cbn [step snd]. unfold props. rewrite Ho.
        pose proof (matched_get _ key _ _ HM) as Hg.
        cbn [for_each] in Hk. unfold member_validate at 1 in Hk. cbn [ov_names ov_data ov_pat ov_addl ov_uneval bind] in Hk.
        destruct (dget key (o_props y)) as [l|] eqn:Hgl.
        - apply quiet_step; [reflexivity|]. cbn [step snd]. unfold props. rewrite Ho, Hgl.
          destruct (dget key m) as [n|]; [|contradiction]. apply (Hrec l n); [exact Hg|].
          destruct (vrec n x (ctx_add c key)) as [[]|e|]; cbn [andthen bind] in *; [apply IH; exact Hk|exact Hk|exact Hk].
        - destruct (dget key m) as [n|]; [contradiction|]. apply quiet_step; [reflexivity|]. cbn [step snd]. rewrite Ho.
          unfold pattern_table in HP. destruct (o_pats y) as [q|] eqn:Hq; destruct pm as [pm|]; try contradiction.
          + apply quiet_step; [reflexivity|]. cbn [step snd]. rewrite Ho, Hq.
            apply quiet_step; [reflexivity|]. cbn [step snd]. rewrite (matched_length _ _ _ HP).
            apply quiet_pats; [exact HP|lia|]. cbn [skipn].
            destruct (pattern_loop E vrec pm key x c false) as [[]|e|]; cbn [andthen bind] in *; try (apply IH; exact Hk); exact Hk.
          + apply IH. exact Hk.
      Qed.
      Lemma quiet_entry e o v c k : stands_for s R e o -> quiet (k (run_vobj view E vrec f o v c)) ->
        quiet (entry_prog view E rec e v c k).
      Proof.
        intros HS Hk. destruct e as [x|i]; cbn [entry_prog].
        - destruct HS as [[_ Hl] ->]. rewrite (Hl _ vrec 0 f). exact Hk.
        - destruct HS as (y & m & pm & Ho & -> & HM & HP).
          assert (Hrun : run_vobj view E vrec f (VObject (ObjV m None pm false None)) v c =
            match v with VDict d => for_each (member_validate E vrec (ObjV m None pm false None) c) d | _ => Ok tt end) by (destruct v; reflexivity).
          rewrite Hrun in Hk. destruct v; try exact Hk. eapply quiet_members; eassumption.
      Qed.
      Lemma quiet_entries l d rem i v c k : matched (stands_for s R) (entries s l) d -> length d = rem + i ->
        quiet (k (for_each (fun kv => run_vobj view E vrec f (snd kv) v c) (skipn i d))) ->
        quiet (entries_prog view E rec rem i l (length d) v c k).
      Proof.
        intros HM. revert i k. induction rem as [|rem IH]; intros i k Hlen Hk.
        all: cbn [entries_prog]; apply quiet_step; [reflexivity|]; cbn [step snd]; unfold iter_next;
          rewrite (matched_length _ _ _ HM), Nat.eqb_refl; cbn [negb]; pose proof (matched_nth _ _ _ i HM) as Hn; rewrite (skipn_at d i) in Hk.
        - rewrite (proj2 (nth_error_None d i)) in Hn, Hk by lia.
          destruct (nth_error (entries s l) i) as [a|]; [contradiction|]. exact Hk.
        - destruct (nth_error d i) as [[p n]|] eqn:Hm; [|apply nth_error_None in Hm; lia].
          destruct (nth_error (entries s l) i) as [[p' e]|]; [|contradiction]. destruct Hn as [_ Hl]. cbn [snd] in Hl.
          apply quiet_entry with (o := n); [exact Hl|]. cbn [for_each snd] in Hk.
          destruct (run_vobj view E vrec f n v c) as [[]|e0|]; cbn [andthen bind] in *; [|exact Hk|exact Hk].
          apply IH; [lia|exact Hk].
      Qed.
    End Loop.
    Lemma quiet_validate fuel : forall l n v c k, R l n ->
      quiet (k (validate view strx E voc fuel n v c)) -> quiet (validate_prog view strx E voc fuel l v c k).
    Proof.
      induction fuel as [|f IH]; intros l n v c k Hl Hk; [exact Hk|]. cbn [validate_prog].
      destruct (HR l n Hl) as (x & d & Hx & Hld & Hd & HM).
      apply quiet_step; [reflexivity|]. cbn [step snd]. rewrite Hx, Hld.
      apply quiet_step; [reflexivity|]. cbn [step snd].
      assert (HE : matched (stands_for s R) (entries s l) d) by (unfold entries; rewrite Hx; exact HM).
      rewrite (matched_length _ _ _ HE). apply quiet_entries with (f := f); [exact IH|exact HE|lia|].
      cbn [validate] in Hk. rewrite Hd in Hk. exact Hk.
    Qed.
  End Run.
  Lemma quiet_call s R root l fuel v : all_ready s R -> w_root s = Some l -> R l root ->
    quiet s (schema_validate view strx E voc fuel root v) (call view strx E voc root fuel v).
  Proof.
    intros HR Hl Hroot. unfold call, schema_validate. destruct (view root) as [w|e|]; cbn [bind]; try apply quiet_done.
    destruct (nv_val w); try apply quiet_done. cbv zeta.
    apply quiet_step; [reflexivity|]. cbn [step snd]. rewrite Hl.
    apply quiet_step; [reflexivity|]. cbn [step snd]. rewrite Hl.
    eapply quiet_validate; [exact HR|exact Hroot|]. apply quiet_done.
  Qed.

  (** *** The threads together *)
  Lemma quiet_next s r p : quiet s r p -> fst (step s p) = s /\ quiet s r (snd (step s p)).
  Proof. intro H. destruct H as [|p H1 H2]; [split; [reflexivity|apply quiet_done]|split; assumption]. Qed.
  Lemma quiet_all s rs ts sched : Forall2 (quiet s) rs ts ->
    fst (interleave sched (s, ts)) = s /\ Forall2 (quiet s) rs (snd (interleave sched (s, ts))).
  Proof.
    revert ts; induction sched as [|i sched IH]; intros ts H; [split; [reflexivity|exact H]|].
    unfold interleave in *. cbn [fold_left].
    assert (Hst : exists ts', step_thread (s, ts) i = (s, ts') /\ Forall2 (quiet s) rs ts').
    { cbn [step_thread]. destruct (nth_error ts i) as [p|] eqn:Hp; [|eauto].
      assert (Hq : exists r, quiet s r p).
      { clear -H Hp. revert i Hp. induction H as [|r p' rs ts H F IH]; intros [|i] Hp; try discriminate; [injection Hp as <-; eauto|eauto]. }
      destruct Hq as [r0 Hq]. destruct (quiet_next _ _ _ Hq) as [Hs _].
      destruct (step s p) as [s' p'] eqn:Hsp. cbn [fst] in Hs. subst s'. eexists. split; [reflexivity|].
      revert i Hp. clear Hq IH. induction H as [|r p1 rs ts H F IHF]; intros [|i] Hp; try discriminate; cbn [upd].
      - injection Hp as ->. constructor; [|exact F]. pose proof (proj2 (quiet_next _ _ _ H)) as Hn. rewrite Hsp in Hn. exact Hn.
      - constructor; [exact H|]. apply IHF. exact Hp. }
    destruct Hst as (ts' & -> & H'). apply IH. exact H'.
  Qed.
  Lemma quiet_Done s r r0 : quiet s r (Done r0) -> r0 = r.
  Proof.
    assert (Hall : forall p, quiet s r p -> p = Done r0 -> r0 = r).
    { induction 1 as [|p Hs H IH]; intro Hp; [injection Hp; auto|]. subst p. apply IH. reflexivity. }
    intro H. exact (Hall _ H eq_refl).
  Qed.

  (** C99 once the validators are loaded, [patternProperties] included: whatever
      the number of threads, the values and the interleaving, a thread that is
      done has the outcome of the call made alone, and nothing is changed. *)
  Theorem C99_loaded_partial s (R : lid -> node -> Prop) root l (calls : list (nat * pv)) (sched : list nat) :
    w_root s = Some l -> R l root -> all_ready s R ->
    let s' := interleave sched (s, map (fun fv => call view strx E voc root (fst fv) (snd fv)) calls) in
    fst s' = s /\
    forall i fuel v r, nth_error calls i = Some (fuel, v) -> outcome s' i = Some r ->
      r = schema_validate view strx E voc fuel root v.
  Proof.
    intros Hl Hroot HR s'.
    assert (HA : Forall2 (quiet s) (map (fun fv => schema_validate view strx E voc (fst fv) root (snd fv)) calls)
                   (map (fun fv => call view strx E voc root (fst fv) (snd fv)) calls)).
    { clear s'. induction calls; simpl; constructor; [|assumption]. eapply quiet_call; eassumption. }
    destruct (quiet_all s _ _ sched HA) as [Hs HQ]. fold s' in Hs, HQ. split; [exact Hs|].
    intros i fuel v r Hi Ho. unfold outcome in Ho.
    destruct (nth_error (snd s') i) as [p|] eqn:Hp; [|discriminate]. destruct p; try discriminate. injection Ho as ->.
    assert (Hn : forall rs ts, Forall2 (quiet s) rs ts -> forall i r0, nth_error ts i = Some (Done r0) -> nth_error rs i = Some r0).
    { clear. induction 1 as [|x p rs ts H F IH]; intros [|i] r0 Hp; try discriminate; [|apply IH; exact Hp].
      injection Hp as ->. apply quiet_Done in H. subst. reflexivity. }
    specialize (Hn _ _ HQ i _ Hp). rewrite nth_error_map, Hi in Hn. injection Hn as <-. reflexivity.
  Qed.
End Loaded.

(** ** Non-vacuity: a schema with two patterns, one of them applying twice over *)
Local Open Scope string_scope.
Local Open Scope list_scope.
Local Open Scope nat_scope.
Definition word_schema : jt := jobj [("type", jstr "string")].
Definition long_schema : jt := jobj [("minLength", jnum 3)].
Definition patterns_schema : jt :=
  jobj [("properties", jobj [("id", word_schema)]); ("patternProperties", jobj [("a", word_schema); ("ab", long_schema)])].
(** what is there after one call, made alone *)
Definition first_use : pv := jdict [("id", VStr (u "x")); ("abc", VStr (u "long"))].
Definition after_first : world :=
  fst (interleave (repeat 0 80) (start, [use_call patterns_schema first_use])).
Definition validators (l : lid) (n : jt) : Prop :=
  (l = 0 /\ n = patterns_schema) \/ (l = 1 /\ n = word_schema) \/ (l = 2 /\ n = word_schema) \/ (l = 3 /\ n = long_schema).
Example C99_first_use :
  outcome (interleave (repeat 0 80) (start, [use_call patterns_schema first_use])) 0 = Some (alone patterns_schema first_use).
Proof. vm_compute. reflexivity. Qed.
Lemma after_first_ready : all_ready tview ex_strx ex_env validator_vocabulary after_first validators.
Proof.
  assert (Hleaf : forall (o : vobj jt jt),
    match o with VType _ | VMinLength _ => True | _ => False end -> leafy tview ex_env o).
  { intros [] H; try contradiction; split; try exact I; intros ? ? ? ? ? ?; reflexivity. }
  let s := eval vm_compute in after_first in assert (Hs : after_first = s) by (vm_compute; reflexivity). rewrite Hs. clear Hs.
  intros l n [[-> ->]|[[-> ->]|[[-> ->]|[-> ->]]]].
  - eexists _, _. split; [reflexivity|]. split; [reflexivity|]. split; [vm_compute; reflexivity|].
    constructor; [|constructor]. split; [reflexivity|]. cbn [snd]. eexists _, _, _. split; [reflexivity|]. split; [reflexivity|].
    split; [constructor; [split; [reflexivity|right; left; split; reflexivity]|constructor]|].
    constructor; [split; [reflexivity|do 2 right; left; split; reflexivity]|].
    constructor; [split; [reflexivity|do 3 right; split; reflexivity]|constructor].
  - eexists _, _. split; [reflexivity|]. split; [reflexivity|]. split; [vm_compute; reflexivity|].
    constructor; [|constructor]. split; [reflexivity|]. split; [apply Hleaf; exact I|reflexivity].
  - eexists _, _. split; [reflexivity|]. split; [reflexivity|]. split; [vm_compute; reflexivity|].
    constructor; [|constructor]. split; [reflexivity|]. split; [apply Hleaf; exact I|reflexivity].
  - eexists _, _. split; [reflexivity|]. split; [reflexivity|]. split; [vm_compute; reflexivity|].
    constructor; [|constructor]. split; [reflexivity|]. split; [apply Hleaf; exact I|reflexivity].
Qed.
(** after it, any number of threads in any interleaving; the second of these
    values fails by the second pattern only *)
Example C99_afterwards (values : list pv) sched i v r :
  nth_error values i = Some v ->
  outcome (interleave sched (after_first, map (use_call patterns_schema) values)) i = Some r -> r = alone patterns_schema v.
Proof.
  intros Hv Ho.
  pose proof (C99_loaded_partial tview ex_strx ex_env validator_vocabulary after_first validators patterns_schema 0
                (map (fun v => (5, v)) values) sched eq_refl (or_introl (conj eq_refl eq_refl)) after_first_ready) as [_ H].
  rewrite map_map in H. apply (H i 5 v); [rewrite nth_error_map, Hv; reflexivity|exact Ho].
Qed.
Example C99_two_patterns :
  alone patterns_schema (jdict [("abc", VStr (u "long"))]) = Ok tt /\
  (exists e, alone patterns_schema (jdict [("abc", VStr (u "x"))]) = Raise (EValid e)) /\
  alone patterns_schema (jdict [("a", VStr (u "x"))]) = Ok tt.
Proof. split; [vm_compute; reflexivity|]. split; [eexists|]; vm_compute; reflexivity. Qed.

Print Assumptions C99_loaded_partial.
