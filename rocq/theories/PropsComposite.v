(** Properties C14, C17-C25, C29, C32: schemas built from other schemas. *)
From Verif Require Import PyBase PyBaseFacts PyVal Errors Validators Keywords Spec LeafFacts Mono RunFacts KeywordFacts Master Claims ScalarFacts PropsScalar CompositeFacts.
From Coq Require Import QArith ZifyBool.
Local Open Scope Z_scope.

(** [k] of the values in [l] satisfy [P], the others satisfy [Q] *)
Inductive counted {A} (P Q : A -> Prop) : list A -> Z -> Prop :=
| counted_nil : counted P Q [] 0
| counted_yes x l k : P x -> counted P Q l k -> counted P Q (x :: l) (k + 1)
| counted_no x l k : Q x -> counted P Q l k -> counted P Q (x :: l) k.

Section Props.
  Context {node : Type} (view : node -> res (nview node)) (strx : node -> pystr) (E : env).
  Variable voc : list akw.
  Hypothesis Hwf : wf_view view.
  Notation Accepts := (Accepts view strx E voc).
  Notation Rejects := (Rejects view strx E voc).
  Notation Outcome := (Outcome view strx E voc).
  Notation Diverges := (Diverges view strx E voc).
  Notation RejectsWith := (RejectsWith view strx E voc).
  Notation obj_at := (obj_at view).
  Notation val_at := (val_at view).
  Notation lone := (lone voc).
  Notation val := (validate view strx E voc).

  (** a sub-schema: an object, a boolean, or a reference to one *)
  Definition schema_at (m : node) : Prop :=
    exists w, view m = Ok w /\ match nv_val w with NObj _ | NBool _ => True | _ => False end.
  (** node [m] is an array of these nodes *)
  Definition list_at (m : node) (l : list node) : Prop := val_at m (NArr l).

  (** ** C14: dependentSchemas *)
  Theorem C14_dependent_schemas n items m table v c :
    obj_at n items -> lone items KwDependentSchemas m -> obj_at m table ->
    (Accepts n v c <->
       forall d, v = VDict d -> forall key s, In (key, s) table -> In key (dkeys d) -> Accepts s v c) /\
    (forall before key s after d e, v = VDict d -> table = before ++ (key, s) :: after ->
       (forall k' s', In (k', s') before -> In k' (dkeys d) -> Accepts s' v c) ->
       In key (dkeys d) -> Outcome s v c (Raise e) -> Outcome n v c (Raise e)).
  Proof.
    intros Hn Hl (w & Hw & Hx). pose proof Hl as (_ & Hm & _).
    assert (Ha : apply view strx E KwDependentSchemas items [] = Ok (put KwDependentSchemas (VDepSchemas table) [])).
    { unfold apply, opnd, opnd_node. rewrite Hm. cbn [bind]. rewrite Hw. cbn [bind]. unfold as_obj. rewrite Hx. reflexivity. }
    split.
    - rewrite (lone_accepts view strx E voc Hwf n items KwDependentSchemas m w v c Hn Hl Hw (ex_intro _ _ Ha)).
      rewrite Hx. simpl. destruct v; split; intro H; try exact I; try (intros; discriminate).
      + intros d' Hd. injection Hd as <-. exact H.
      + exact (H d eq_refl).
    - intros before key s after d e -> Ht Hb Hk Hs.
      apply (lone_ev view strx E voc Hwf n items KwDependentSchemas m _ (VDict d) c _ Hn Hl eq_refl Ha); [discriminate|].
      cbn [run_vobj]. unfold dep_schemas_validate. subst table.
      apply (for_each_ev (fun k '(key, n) => if dmem key d then val k n (VDict d) c else Ok tt)).
      + intros [k' s'] Hin. destruct (dmem k' d) eqn:Hd; [|apply ev_all; reflexivity].
        apply dmem_In in Hd. apply accepts_ev. exact (Hb k' s' Hin Hd).
      + apply dmem_In in Hk. rewrite Hk. apply outcome_ev, Hs.
  Qed.

  (** ** C17: allOf *)
  Lemma allof_apply items m l : dget (kw_key KwAllOf) items = Some m -> list_at m l ->
    apply view strx E KwAllOf items [] = Ok (put KwAllOf (VAllOf l) []).
  Proof. intros Hm Hx. unfold list_at, Claims.val_at in Hx. kw_apply Hm Hx. reflexivity. Qed.
  Theorem C17_allOf n items m l v c :
    obj_at n items -> lone items KwAllOf m -> list_at m l ->
    (Accepts n v c <-> forall s, In s l -> Accepts s v c) /\
    (forall before s after e, l = before ++ s :: after ->
       (forall s', In s' before -> Accepts s' v c) -> Outcome s v c (Raise e) -> Outcome n v c (Raise e)).
  Proof.
    intros Hn Hl Hx. pose proof Hl as (_ & Hm & _). pose proof (allof_apply items m l Hm Hx) as Ha. split.
    - rewrite (lone_accepts view strx E voc Hwf n items KwAllOf m _ v c Hn Hl Hx (ex_intro _ _ Ha)). reflexivity.
    - intros before s after e -> Hb Hs.
      apply (lone_ev view strx E voc Hwf n items KwAllOf m _ v c _ Hn Hl eq_refl Ha); [discriminate|].
      cbn [run_vobj]. apply (for_each_ev (fun k n => val k n v c)).
      + intros s' Hin. apply accepts_ev, Hb, Hin.
      + apply outcome_ev, Hs.
  Qed.

  (** ** C18: anyOf *)
  Lemma anyof_apply items m l : dget (kw_key KwAnyOf) items = Some m -> list_at m l ->
    apply view strx E KwAnyOf items [] = Ok (put KwAnyOf (VAnyOf l) []).
  Proof. intros Hm Hx. unfold list_at, Claims.val_at in Hx. kw_apply Hm Hx. reflexivity. Qed.

  Lemma split_first_accept (l : list node) v c :
    (forall s, In s l -> Accepts s v c \/ Rejects s v c) -> (exists s, In s l /\ Accepts s v c) ->
    exists l1 s l2, l = l1 ++ s :: l2 /\ (forall s', In s' l1 -> Rejects s' v c) /\ Accepts s v c.
  Proof.
    induction l as [|x l IH]; intros Hd (s & Hin & Hs); [destruct Hin|].
    destruct (Hd x (or_introl eq_refl)) as [Hx|Hx].
    - exists [], x, l. split; [reflexivity|]. split; [intros ? []|exact Hx].
    - destruct Hin as [->|Hin].
      + exfalso. exact (accepts_not_rejects view strx E voc s v c Hs Hx).
      + destruct IH as (l1 & s1 & l2 & -> & H1 & H2); [intros; apply Hd; right; assumption|eauto|].
        exists (x :: l1), s1, l2. split; [reflexivity|]. split; [|exact H2]. intros s' [<-|Hs']; auto.
  Qed.
  Lemma anyof_last rec (l : list node) es s e v c last :
    Forall2 (fun s e => rec s v c = Raise (EValid e)) l es -> rec s v c = Raise (EValid e) ->
    anyof_loop rec (l ++ [s]) v c last = Raise (EValid e).
  Proof.
    intros H Hs. revert last. induction H as [|x e' l es Hx H IH]; intro last; cbn [app anyof_loop].
    - rewrite Hs. reflexivity.
    - rewrite Hx. cbn [try_valid bind]. apply IH.
  Qed.
  Theorem C18_anyOf n items m l v c :
    obj_at n items -> lone items KwAnyOf m -> list_at m l ->
    (forall s, In s l -> Accepts s v c \/ Rejects s v c) ->
    (Accepts n v c <-> exists s, In s l /\ Accepts s v c) /\
    (forall before s e, l = before ++ [s] -> (forall s', In s' l -> Rejects s' v c) ->
       Outcome s v c (Raise (EValid e)) -> Outcome n v c (Raise (EValid e))).
  Proof.
    intros Hn Hl Hx Hd. pose proof Hl as (_ & Hm & _). pose proof (anyof_apply items m l Hm Hx) as Ha. split.
    - rewrite (lone_accepts view strx E voc Hwf n items KwAnyOf m _ v c Hn Hl Hx (ex_intro _ _ Ha)). simpl. split.
      + intros (l1 & s & l2 & -> & _ & Hs). exists s. split; [apply in_or_app; right; left; reflexivity|exact Hs].
      + apply split_first_accept, Hd.
    - intros before s e -> Hr Hs.
      apply (lone_ev view strx E voc Hwf n items KwAnyOf m _ v c _ Hn Hl eq_refl Ha); [discriminate|].
      cbn [run_vobj].
      destruct (rejects_uniform view strx E voc before v c) as [es Hes].
      { intros s' Hs'. apply Hr, in_or_app. left. exact Hs'. }
      eapply ev_impl; [|exact (ev_and _ _ Hes (outcome_ev view strx E voc s v c _ Hs))].
      intros f [H1 H2]. exact (anyof_last _ _ _ _ _ _ _ _ H1 H2).
  Qed.
  (** branches after the first accepting one are not consulted *)
  Theorem C18_anyOf_short_circuit n items m before s after v c :
    obj_at n items -> lone items KwAnyOf m -> list_at m (before ++ s :: after) ->
    (forall s', In s' before -> Rejects s' v c) -> Accepts s v c -> Accepts n v c.
  Proof.
    intros Hn Hl Hx Hb Hs. pose proof Hl as (_ & Hm & _). pose proof (anyof_apply items m _ Hm Hx) as Ha.
    apply (lone_accepts view strx E voc Hwf n items KwAnyOf m _ v c Hn Hl Hx (ex_intro _ _ Ha)). simpl.
    exists before, s, after. auto.
  Qed.

  (** ** C19: oneOf *)
  Lemma oneof_apply items m l : dget (kw_key KwOneOf) items = Some m -> list_at m l ->
    apply view strx E KwOneOf items [] = Ok (put KwOneOf (VOneOf l) []).
  Proof. intros Hm Hx. unfold list_at, Claims.val_at in Hx. kw_apply Hm Hx. reflexivity. Qed.
  Lemma oneof_last rec (l : list node) es s e v c last :
    Forall2 (fun s e => rec s v c = Raise (EValid e)) l es -> rec s v c = Raise (EValid e) ->
    oneof_loop rec (l ++ [s]) v c 0 last = Raise (EValid e).
  Proof.
    intros H Hs. revert last. induction H as [|x e' l es Hx H IH]; intro last; cbn [app oneof_loop].
    - rewrite Hs. reflexivity.
    - rewrite Hx. cbn [try_valid bind]. apply IH.
  Qed.
  Theorem C19_oneOf n items m l v c :
    obj_at n items -> lone items KwOneOf m -> list_at m l ->
    (forall s, In s l -> Accepts s v c \/ Rejects s v c) ->
    (Accepts n v c <->
       exists i s, nth_error l i = Some s /\ Accepts s v c /\
         forall j s', nth_error l j = Some s' -> Accepts s' v c -> j = i) /\
    (forall i j s s', nth_error l i = Some s -> nth_error l j = Some s' -> i <> j ->
       Accepts s v c -> Accepts s' v c -> plain c -> RejectsWith n v c KOneOf c) /\
    (forall before s e, l = before ++ [s] -> (forall s', In s' l -> Rejects s' v c) ->
       Outcome s v c (Raise (EValid e)) -> Outcome n v c (Raise (EValid e))).
  Proof.
    intros Hn Hl Hx Hd. pose proof Hl as (_ & Hm & _). pose proof (oneof_apply items m l Hm Hx) as Ha.
    split; [|split].
    - rewrite (lone_accepts view strx E voc Hwf n items KwOneOf m _ v c Hn Hl Hx (ex_intro _ _ Ha)). simpl. split.
      + intros (l1 & s & l2 & -> & Hs & Hr). exists (List.length l1), s.
        split; [rewrite nth_error_app2 by lia; rewrite Nat.sub_diag; reflexivity|]. split; [exact Hs|].
        intros j s' Hj Hs'. destruct (Nat.eq_dec j (List.length l1)) as [?|Hne]; [assumption|exfalso].
        apply (accepts_not_rejects view strx E voc s' v c Hs'), Hr, in_or_app.
        destruct (Nat.lt_ge_cases j (List.length l1)).
        * left. rewrite nth_error_app1 in Hj by assumption. eapply nth_error_In, Hj.
        * right. rewrite nth_error_app2 in Hj by assumption.
          destruct (j - List.length l1)%nat as [|j'] eqn:Hjj; [lia|]. simpl in Hj. eapply nth_error_In, Hj.
      + intros (i & s & Hi & Hs & Huniq).
        destruct (nth_error_split l i Hi) as (l1 & l2 & -> & Hlen).
        exists l1, s, l2. split; [reflexivity|]. split; [exact Hs|]. intros s' Hin.
        assert (Hin' : In s' (l1 ++ s :: l2)) by (apply in_app_or in Hin as [?|?]; apply in_or_app; [left|right; right]; assumption).
        destruct (Hd s' Hin') as [Hs'|Hs']; [exfalso|exact Hs'].
        apply in_app_or in Hin as [Hin|Hin]; apply In_nth_error in Hin as [j Hj].
        * assert (Hlt : (j < List.length l1)%nat) by (apply nth_error_Some; congruence).
          specialize (Huniq j s'). rewrite nth_error_app1 in Huniq by exact Hlt. specialize (Huniq Hj Hs'). lia.
        * specialize (Huniq (S (List.length l1 + j)) s').
          rewrite nth_error_app2 in Huniq by lia.
          replace (S (List.length l1 + j) - List.length l1)%nat with (S j) in Huniq by lia.
          specialize (Huniq Hj Hs'). lia.
    - assert (Hmain : forall i j s s', (i < j)%nat -> nth_error l i = Some s -> nth_error l j = Some s' ->
                Accepts s v c -> Accepts s' v c -> plain c -> RejectsWith n v c KOneOf c).
      { intros i j s s' Hij Hi Hj Hs Hs' Hc.
        apply (lone_ev view strx E voc Hwf n items KwOneOf m _ v c _ Hn Hl eq_refl Ha); [discriminate|].
        cbn [run_vobj]. eapply ev_impl; [|exact (decided_ev view strx E voc l v c Hd)].
        intros f Hf. cbn beta in Hf.
        assert (Hdec : forall s0, In s0 l -> val f s0 v c = Ok tt \/ exists e, val f s0 v c = Raise (EValid e)).
        { intros s0 H0. destruct (Hd s0 H0) as [H1|H1]; [left; apply Hf|right; apply Hf]; assumption. }
        assert (Hok : val f s v c = Ok tt) by (apply Hf; [eapply nth_error_In, Hi|exact Hs]).
        assert (Hok' : val f s' v c = Ok tt) by (apply Hf; [eapply nth_error_In, Hj|exact Hs']).
        destruct (nth_error_split l j Hj) as (l1 & l2 & -> & Hlen).
        rewrite nth_error_app1 in Hi by lia.
        destruct (oneof_app (val f) l1 (s' :: l2) v c 0 None) as (k' & la & Heq & _ & Hk).
        { intros s0 H0. apply Hdec, in_or_app. left. exact H0. }
        rewrite Heq. cbn [oneof_loop]. rewrite Hok'. cbn [try_valid bind].
        specialize (Hk s (nth_error_In _ _ Hi) Hok).
        rewrite (oneof_two (val f) l2 v c (S k') la); [apply raise_at, Hc| |lia].
        intros s0 H0. apply Hdec, in_or_app. right. right. exact H0. }
      intros i j s s' Hi Hj Hne Hs Hs' Hc. destruct (Nat.lt_ge_cases i j).
      + eapply (Hmain i j); eassumption.
      + eapply (Hmain j i); try eassumption. lia.
    - intros before s e -> Hr Hs.
      apply (lone_ev view strx E voc Hwf n items KwOneOf m _ v c _ Hn Hl eq_refl Ha); [discriminate|].
      cbn [run_vobj].
      destruct (rejects_uniform view strx E voc before v c) as [es Hes].
      { intros s' Hs'. apply Hr, in_or_app. left. exact Hs'. }
      eapply ev_impl; [|exact (ev_and _ _ Hes (outcome_ev view strx E voc s v c _ Hs))].
      intros f [H1 H2]. exact (oneof_last _ _ _ _ _ _ _ _ H1 H2).
  Qed.

  (** ** C20: not *)
  Theorem C20_not n items m v c :
    obj_at n items -> lone items KwNot m -> (exists it, obj_at m it) ->
    (Accepts n v c <-> Rejects m v c) /\
    (Accepts m v c -> RejectsWith n v c KNot c) /\
    (forall e, Outcome n v c (Raise (EValid e)) -> Accepts m v c) /\
    (forall e, Outcome m v c (Raise e) -> (forall ve, e <> EValid ve) -> Outcome n v c (Raise e)).
  Proof.
    intros Hn Hl (it & w & Hw & Hx). pose proof Hl as (_ & Hm & _).
    assert (Ha : apply view strx E KwNot items [] = Ok (put KwNot (VNot m) [])).
    { unfold apply, opnd, opnd_node. rewrite Hm. cbn [bind]. rewrite Hw. cbn [bind]. unfold as_obj. rewrite Hx. reflexivity. }
    split; [|split; [|split]].
    - rewrite (lone_accepts view strx E voc Hwf n items KwNot m w v c Hn Hl Hw (ex_intro _ _ Ha)). rewrite Hx. reflexivity.
    - intro Hs. apply (lone_ev view strx E voc Hwf n items KwNot m _ v c _ Hn Hl eq_refl Ha); [discriminate|].
      eapply ev_impl; [|exact (accepts_ev view strx E voc m v c Hs)]. intros f Hf. cbn [run_vobj].
      unfold not_validate. cbn beta in Hf. rewrite Hf. cbn [try_valid bind]. unfold raise_verr. simpl. rewrite dotted_path. reflexivity.
    - intros e [_ [[|f] Hf]]; [discriminate|].
      rewrite (lone_validate view strx E voc Hwf n items KwNot m _ f v c Hn Hl eq_refl Ha) in Hf. cbn [run_vobj] in Hf.
      unfold not_validate in Hf. exists f. destruct (val f m v c) as [[]|[]|]; try discriminate. reflexivity.
    - intros e He Hne. apply (lone_ev view strx E voc Hwf n items KwNot m _ v c _ Hn Hl eq_refl Ha); [discriminate|].
      eapply ev_impl; [|exact (outcome_ev view strx E voc m v c _ He)]. intros f Hf. cbn [run_vobj].
      unfold not_validate. cbn beta in Hf. rewrite Hf. destruct e; try reflexivity. exfalso. exact (Hne _ eq_refl).
  Qed.

  (** ** C21: if / then / else *)
  (** the branch [k] of a conditional: present and recognised ([Some]), or not *)
  Definition branch_at (items : list (pystr * node)) (k : akw) (b : option node) : Prop :=
    match b with
    | Some m => In k voc /\ dget (kw_key k) items = Some m /\ exists it, obj_at m it
    | None => ~ (In k voc /\ In (kw_key k) (dkeys items))
    end.
  Lemma branch_onode items k b : branch_at items k b ->
    (if akw_mem k (rev (actives items voc)) then onode items k else None) = b.
  Proof.
    unfold branch_at, onode. destruct (akw_mem k (rev (actives items voc))) eqn:Hd.
    - apply done_mem in Hd. destruct b as [m|]; [tauto|contradiction].
    - destruct b as [m|]; [|reflexivity]. intros (H1 & H2 & _). exfalso.
      assert (akw_mem k (rev (actives items voc)) = true); [|congruence].
      apply done_mem. split; [exact H1|]. apply dget_In, (in_map fst) in H2. exact H2.
  Qed.
  Lemma cond_table n items i t e : obj_at n items -> only voc items [KwIf; KwThen; KwElse] ->
    branch_at items KwIf (Some i) -> branch_at items KwThen t -> branch_at items KwElse e ->
    compile view strx E voc n = Ok [(u "if", VCond (CondV (Some i) t e))].
  Proof.
    intros (w & Hw & Hx) Ho Hi Ht He.
    rewrite (cond_compile view strx E voc Hwf n w items Hw Hx Ho).
    - unfold condv_of. rewrite (branch_onode items KwIf _ Hi), (branch_onode items KwThen _ Ht), (branch_onode items KwElse _ He).
      reflexivity.
    - exists KwIf. destruct Hi as (H1 & H2 & _). split; [exact H1|]. apply dget_In, (in_map fst) in H2. exact H2.
    - apply Forall_forall. intros k Hk. apply filter_In in Hk as [H1 H2].
      assert (Hb : exists m it, dget (kw_key k) items = Some m /\ obj_at m it).
      { pose proof (proj1 (dmem_In _ _) H2) as H2'. destruct (Ho k H1 H2') as [<-|[<-|[<-|[]]]].
        - destruct Hi as (_ & H3 & it & H4). eauto.
        - destruct t as [t|]; [destruct Ht as (_ & H3 & it & H4); eauto|]. exfalso. apply Ht. auto.
        - destruct e as [e|]; [destruct He as (_ & H3 & it & H4); eauto|]. exfalso. apply He. auto. }
      destruct Hb as (m & it & Hm & w' & Hw' & Hx').
      pose proof (proj1 (dmem_In _ _) H2) as H2'.
      unfold applies, apply, opnd, opnd_node. rewrite Hm. cbn [bind]. rewrite Hw'. cbn [bind]. unfold as_obj. rewrite Hx'.
      destruct (Ho k H1 H2') as [<-|[<-|[<-|[]]]]; cbn [bind get_condv dget]; eauto.
  Qed.
  Theorem C21_if_then_else n items i t e v c r :
    obj_at n items -> only voc items [KwIf; KwThen; KwElse] ->
    branch_at items KwIf (Some i) -> branch_at items KwThen (Some t) -> branch_at items KwElse (Some e) ->
    (Accepts i v c -> Outcome t v c r -> Outcome n v c r) /\
    (Rejects i v c -> Outcome e v c r -> Outcome n v c r).
  Proof.
    intros Hn Ho Hi Ht He. pose proof (cond_table n items i _ _ Hn Ho Hi Ht He) as Hco. split.
    - intros Ha Hr. apply (one_outcome view strx E voc n _ _ v c r Hco (proj1 Hr)).
      eapply ev_impl; [|exact (ev_and _ _ (accepts_ev view strx E voc i v c Ha) (outcome_ev view strx E voc t v c r Hr))].
      intros f [H1 H2]. cbn [run_vobj]. unfold cond_validate. cbn [cv_if cv_then cv_else]. rewrite H1. cbn [try_valid bind].
      exact H2.
    - intros Ha Hr. apply (one_outcome view strx E voc n _ _ v c r Hco (proj1 Hr)).
      destruct (rejects_ev view strx E voc i v c Ha) as [ve Hve].
      eapply ev_impl; [|exact (ev_and _ _ Hve (outcome_ev view strx E voc e v c r Hr))].
      intros f [H1 H2]. cbn [run_vobj]. unfold cond_validate. cbn [cv_if cv_then cv_else]. rewrite H1. cbn [try_valid bind].
      exact H2.
  Qed.
  (** a missing [then] accepts; any [else] *)
  Theorem C21_missing_then n items i b v c :
    obj_at n items -> only voc items [KwIf; KwThen; KwElse] ->
    branch_at items KwIf (Some i) -> branch_at items KwThen None -> branch_at items KwElse b ->
    (Accepts i v c -> Accepts n v c) /\
    (forall e r, b = Some e -> Rejects i v c -> Outcome e v c r -> Outcome n v c r).
  Proof.
    intros Hn Ho Hi Ht He. pose proof (cond_table n items i _ _ Hn Ho Hi Ht He) as Hco. split.
    - intro Ha. apply outcome_accepts.
      apply (one_outcome view strx E voc n _ _ v c _ Hco); [discriminate|].
      eapply ev_impl; [|exact (accepts_ev view strx E voc i v c Ha)].
      intros f H1. cbn beta in H1. cbn [run_vobj]. unfold cond_validate. cbn [cv_if cv_then cv_else]. rewrite H1. reflexivity.
    - intros e r -> Ha Hr. apply (one_outcome view strx E voc n _ _ v c r Hco (proj1 Hr)).
      destruct (rejects_ev view strx E voc i v c Ha) as [ve Hve].
      eapply ev_impl; [|exact (ev_and _ _ Hve (outcome_ev view strx E voc e v c r Hr))].
      intros f [H1 H2]. cbn [run_vobj]. unfold cond_validate. cbn [cv_if cv_then cv_else]. rewrite H1. cbn [try_valid bind].
      exact H2.
  Qed.
  (** what happens without [else]: rejected-by-[if] instances raise [KeyError] *)
  Theorem C21_missing_else n items i t v c :
    obj_at n items -> only voc items [KwIf; KwThen; KwElse] ->
    branch_at items KwIf (Some i) -> branch_at items KwThen t -> branch_at items KwElse None ->
    Rejects i v c -> Outcome n v c (Raise (EKey (u "else"))).
  Proof.
    intros Hn Ho Hi Ht He Hr. pose proof (cond_table n items i _ _ Hn Ho Hi Ht He) as Hco.
    apply (one_outcome view strx E voc n _ _ v c _ Hco); [discriminate|].
    destruct (rejects_ev view strx E voc i v c Hr) as [ve Hve].
    eapply ev_impl; [|exact Hve]. intros f H1. cbn beta in H1. cbn [run_vobj]. unfold cond_validate. cbn [cv_if cv_then cv_else].
    rewrite H1. reflexivity.
  Qed.
  (** [then] / [else] without [if] have no effect *)
  Theorem C21_no_if n items t e v c :
    obj_at n items -> only voc items [KwIf; KwThen; KwElse] -> ~ (In KwIf voc /\ In (u "if") (dkeys items)) ->
    branch_at items KwThen t -> branch_at items KwElse e -> Accepts n v c.
  Proof.
    intros (w & Hw & Hx) Ho Hi Ht He.
    apply (accepts_object view strx E voc Hwf n w items v c Hw Hx). 
    assert (Hwfi : wf_operands view items) by (intros k0 n' w' m0 _ H1 H2; exact (Hwf n' w' m0 H1 H2)).
    assert (Hb : forall k, In k voc -> dmem (kw_key k) items = true ->
              (k = KwThen \/ k = KwElse) /\ exists m it, dget (kw_key k) items = Some m /\ obj_at m it).
    { intros k H1 H2. pose proof (proj1 (dmem_In _ _) H2) as H2'. destruct (Ho k H1 H2') as [<-|[<-|[<-|[]]]].
      - exfalso. apply Hi. auto.
      - split; [auto|]. destruct t as [t|]; [destruct Ht as (_ & H3 & it & H4); eauto|]. exfalso. apply Ht. auto.
      - split; [auto|]. destruct e as [e|]; [destruct He as (_ & H3 & it & H4); eauto|]. exfalso. apply He. auto. }
    split.
    - apply (compile_ok_iff view strx E items Hwfi w Hx voc n Hw). split.
      + apply Forall_forall. intros k Hk. apply filter_In in Hk as [H1 H2].
        destruct (Hb k H1 H2) as (Hk & m & it & Hm & w' & Hw' & Hx').
        unfold applies, apply, opnd, opnd_node. rewrite Hm. cbn [bind]. rewrite Hw'. cbn [bind]. unfold as_obj. rewrite Hx'.
        destruct Hk as [-> | ->]; cbn [bind get_condv dget]; eauto.
      + intros (l1 & l2 & Heq & _).
        assert (Hin : In KwPrefixItems (actives items voc)) by (rewrite Heq; apply in_or_app; right; left; reflexivity).
        apply filter_In in Hin as [H1 H2]. destruct (Hb _ H1 H2) as [[?|?] _]; discriminate.
    - intros k m x Hk Hm Hmx.
      destruct (Hb k Hk) as ([-> | ->] & _); [apply dmem_dget; eauto| |]; simpl; exact I.
  Qed.

  (** ** C22: items *)
  Lemma items_schema_apply items m w : dget (u "items") items = Some m -> view m = Ok w ->
    match nv_val w with NObj _ | NBool _ => True | _ => False end ->
    apply view strx E KwItems items [] =
    Ok (put KwItems (VArray (if is_true w then None else Some m) None) []).
  Proof.
    intros Hm Hw Hx. change (u "items") with (kw_key KwItems) in Hm.
    unfold apply, opnd, opnd_node. rewrite Hm. cbn [bind]. rewrite Hw. cbn [bind].
    destruct (nv_val w) eqn:Hv; try contradiction; cbn [dget bind]; reflexivity.
  Qed.
  Theorem C22_items n items m vals c :
    obj_at n items -> lone items KwItems m -> schema_at m ->
    (Accepts n (VList vals) c <->
       forall i y, nth_error vals i = Some y -> Accepts m y (c ++ [nat_str i])) /\
    (forall i y e, nth_error vals i = Some y ->
       (forall j z, (j < i)%nat -> nth_error vals j = Some z -> Accepts m z (c ++ [nat_str j])) ->
       Outcome m y (c ++ [nat_str i]) (Raise e) -> Outcome n (VList vals) c (Raise e)).
  Proof.
    intros Hn Hl (w & Hw & Hx). pose proof Hl as (_ & Hm & _).
    pose proof (items_schema_apply items m w Hm Hw Hx) as Ha. split.
    - rewrite (lone_accepts view strx E voc Hwf n items KwItems m w (VList vals) c Hn Hl Hw (ex_intro _ _ Ha)).
      destruct (nv_val w) as [|b| | | |it] eqn:Hv; try contradiction; simpl.
      + destruct b.
        * split; [|eauto]. intros _ i y Hi. apply (accepts_bool view strx E voc m w true y _ Hw Hv). reflexivity.
        * split; [intros (vals' & Heq & H); injection Heq as <-; exact H|intro H; exists vals; auto].
      + split; [intros (vals' & Heq & H); injection Heq as <-; exact H|intro H; exists vals; auto].
    - intros i y e Hi Hb Hr.
      assert (Hnt : is_true w = false).
      { unfold is_true. destruct (nv_val w) as [|b| | | |it] eqn:Hv; try reflexivity. destruct b; [exfalso|reflexivity].
        pose proof (proj2 (accepts_bool view strx E voc m w true y (c ++ [nat_str i]) Hw Hv) eq_refl) as Hacc.
        apply outcome_accepts in Hacc. pose proof (outcome_fun view strx E voc _ _ _ _ _ Hacc Hr). discriminate. }
      rewrite Hnt in Ha.
      apply (lone_ev view strx E voc Hwf n items KwItems m _ (VList vals) c _ Hn Hl eq_refl Ha); [discriminate|].
      cbn [run_vobj]. unfold array_validate. cbn [bind skipn].
      assert (Hgen : forall vals k, (forall j z, (j < i)%nat -> nth_error vals j = Some z -> Accepts m z (c ++ [nat_str (k + j)])) ->
                nth_error vals i = Some y -> Outcome m y (c ++ [nat_str (k + i)]) (Raise e) ->
                ev (fun f => items_loop (val f) m vals k c = Raise e)).
      { clear - Hwf. induction i as [|i IH]; intros [|x vals] k Hb Hi Hr; try discriminate; cbn [items_loop].
        - injection Hi as ->. rewrite Nat.add_0_r in Hr.
          eapply ev_impl; [|exact (outcome_ev view strx E voc _ _ _ _ Hr)]. intros f Hf. cbn beta in Hf.
          unfold ctx_add. rewrite Hf. reflexivity.
        - assert (H0 : Accepts m x (c ++ [nat_str k])).
          { specialize (Hb 0%nat x (Nat.lt_0_succ i) eq_refl). rewrite Nat.add_0_r in Hb. exact Hb. }
          assert (H1 : ev (fun f => items_loop (val f) m vals (S k) c = Raise e)).
          { apply IH.
            - intros j z Hj Hz. replace (S k + j)%nat with (k + S j)%nat by lia. apply Hb; [lia|exact Hz].
            - exact Hi.
            - replace (S k + i)%nat with (k + S i)%nat by lia. exact Hr. }
          eapply ev_impl; [|exact (ev_and _ _ (accepts_ev view strx E voc _ _ _ H0) H1)].
          intros f [Hf1 Hf2]. unfold ctx_add. rewrite Hf1. exact Hf2. }
      apply Hgen; assumption.
  Qed.
  (** a non-array is rejected (with an empty path) *)
  Theorem C22_items_not_array n items m v c :
    obj_at n items -> lone items KwItems m -> schema_at m -> (forall l, v <> VList l) ->
    RejectsWith n v c (KType [u "array"]) [].
  Proof.
    intros Hn Hl (w & Hw & Hx) Hv. pose proof Hl as (_ & Hm & _).
    pose proof (items_schema_apply items m w Hm Hw Hx) as Ha.
    apply (lone_leaf view strx E voc Hwf n items KwItems m _ v c _ Hn Hl eq_refl Ha); [|discriminate].
    intros rec lf. cbn [run_vobj]. unfold array_validate. destruct v; try reflexivity. exfalso. exact (Hv l eq_refl).
  Qed.

  (** the schema of [additionalItems], if it restricts *)
  Definition additional_at (items : list (pystr * node)) (a : option node) : Prop :=
    match a with
    | None => dget (u "additionalItems") items = None \/
              exists m w, dget (u "additionalItems") items = Some m /\ view m = Ok w /\ nv_val w = NBool true
    | Some m => dget (u "additionalItems") items = Some m /\
                exists w, view m = Ok w /\ nv_val w <> NBool true
    end.
  Lemma tuple_apply items m l a : dget (u "items") items = Some m -> list_at m l -> additional_at items a ->
    apply view strx E KwItems items [] = Ok (put KwItems (VArray a (Some l)) []).
  Proof.
    intros Hm Hx Ha. change (u "items") with (kw_key KwItems) in Hm. unfold list_at, Claims.val_at in Hx.
    kw_apply Hm Hx. cbn [dget]. unfold dmem, additional_at in *. destruct a as [a|].
    - destruct Ha as (Hg & w & Hw & Hne). cbn [bind]. rewrite Hg. cbn [bind]. rewrite Hw. cbn [bind].
      unfold is_true. destruct (nv_val w) as [|b| | | |]; try reflexivity. destruct b; [congruence|reflexivity].
    - destruct Ha as [Hg|(a & w & Hg & Hw & Hv)]; cbn [bind]; rewrite Hg; [reflexivity|]. cbn [bind]. rewrite Hw. cbn [bind].
      unfold is_true. rewrite Hv. reflexivity.
  Qed.
  Theorem C22_tuple_items n items m l a vals c :
    obj_at n items -> lone items KwItems m -> list_at m l -> additional_at items a ->
    Accepts n (VList vals) c <->
    (List.length l <= List.length vals)%nat /\
    (forall i s y, nth_error l i = Some s -> nth_error vals i = Some y -> Accepts s y (c ++ [nat_str i])) /\
    (forall s, a = Some s -> forall i y, (List.length l <= i)%nat -> nth_error vals i = Some y ->
       Accepts s y (c ++ [nat_str i])).
  Proof.
    intros Hn Hl Hx Had. pose proof Hl as (_ & Hm & _). pose proof (tuple_apply items m l a Hm Hx Had) as Ha.
    rewrite (lone_accepts view strx E voc Hwf n items KwItems m _ (VList vals) c Hn Hl Hx (ex_intro _ _ Ha)). simpl.
    unfold additional_at in Had. split.
    - intros (vals' & Heq & H1 & H2 & H3). injection Heq as <-. split; [exact H1|]. split; [exact H2|].
      intros s -> i y Hi Hy. destruct Had as (Hg & w & Hw & Hne). exact (H3 s w Hg Hw Hne i y Hi Hy).
    - intros (H1 & H2 & H3). exists vals. split; [reflexivity|]. split; [exact H1|]. split; [exact H2|].
      intros s w Hg Hw Hne i y Hi Hy. destruct a as [a|].
      + destruct Had as (Hg' & w' & Hw' & _). rewrite Hg in Hg'. injection Hg' as <-. exact (H3 s eq_refl i y Hi Hy).
      + exfalso. destruct Had as [Hg'|(a & w' & Hg' & Hw' & Hv')]; [congruence|].
        rewrite Hg in Hg'. injection Hg' as <-. rewrite Hw in Hw'. injection Hw' as <-. contradiction.
  Qed.
  Theorem C22_prefix_items n items m l vals c :
    obj_at n items -> lone items KwPrefixItems m -> list_at m l ->
    Accepts n (VList vals) c <->
    (List.length l <= List.length vals)%nat /\
    (forall i s y, nth_error l i = Some s -> nth_error vals i = Some y -> Accepts s y (c ++ [nat_str i])).
  Proof.
    intros Hn Hl Hx. pose proof Hl as (_ & Hm & _). unfold list_at, Claims.val_at in Hx.
    assert (Ha : apply view strx E KwPrefixItems items [] = Ok (put KwPrefixItems (VArray None (Some l)) []))
      by (kw_apply Hm Hx; reflexivity).
    rewrite (lone_accepts view strx E voc Hwf n items KwPrefixItems m _ (VList vals) c Hn Hl Hx (ex_intro _ _ Ha)). simpl.
    split.
    - intros (vals' & Heq & H). injection Heq as <-. exact H.
    - intro H. exists vals. auto.
  Qed.

  (** ** C23: termination on arrays *)
  (** both tuple forms: [items] with an array operand and [prefixItems] *)
  Definition tuple_at (items : list (pystr * node)) (l : list node) (a : option node) : Prop :=
    (exists m, lone items KwItems m /\ list_at m l /\ additional_at items a) \/
    (exists m, lone items KwPrefixItems m /\ list_at m l /\ a = None).
  Lemma tuple_run n items l a f v c : obj_at n items -> tuple_at items l a ->
    val (S f) n v c = array_validate (val f) f a (Some l) v c.
  Proof.
    intros Hn [(m & Hl & Hx & Ha)|(m & Hl & Hx & ->)]; pose proof Hl as (_ & Hm & _).
    - rewrite (lone_validate view strx E voc Hwf n items KwItems m _ f v c Hn Hl eq_refl (tuple_apply items m l a Hm Hx Ha)).
      reflexivity.
    - unfold list_at, Claims.val_at in Hx.
      assert (Ha : apply view strx E KwPrefixItems items [] = Ok (put KwPrefixItems (VArray None (Some l)) []))
        by (kw_apply Hm Hx; reflexivity).
      rewrite (lone_validate view strx E voc Hwf n items KwPrefixItems m _ f v c Hn Hl eq_refl Ha). reflexivity.
  Qed.
  Lemma prefix_stuck_oof rec lf ps vals i c p :
    nth_error ps i = Some p -> nth_error vals i = None ->
    (rec p VNone (ctx_add c (nat_str i)) = Ok tt \/ rec p VNone (ctx_add c (nat_str i)) = OutOfFuel) ->
    @prefix_loop node rec lf ps vals i c = OutOfFuel.
  Proof.
    intros Hp Hv Hr. induction lf as [|lf IH]; [reflexivity|]. cbn [prefix_loop]. rewrite Hp, Hv.
    destruct Hr as [Hr|Hr]; rewrite Hr; [exact IH|reflexivity].
  Qed.
  Lemma prefix_walk rec ps vals c k : (k <= List.length ps)%nat -> (k <= List.length vals)%nat ->
    (forall i s y, (i < k)%nat -> nth_error ps i = Some s -> nth_error vals i = Some y ->
       rec s y (ctx_add c (nat_str i)) = Ok tt \/ rec s y (ctx_add c (nat_str i)) = OutOfFuel) ->
    forall lf, (exists lf', @prefix_loop node rec lf ps vals 0 c = prefix_loop rec lf' ps vals k c) \/
               prefix_loop rec lf ps vals 0 c = OutOfFuel.
  Proof.
    intros H1 H2 H.
    assert (Hgen : forall d i lf, (i + d = k)%nat ->
              (exists lf', prefix_loop rec lf ps vals i c = prefix_loop rec lf' ps vals k c) \/
              prefix_loop rec lf ps vals i c = OutOfFuel).
    { induction d as [|d IH]; intros i lf Hd.
      - assert (i = k) by lia. subst i. left. exists lf. reflexivity.
      - destruct lf as [|lf]; [right; reflexivity|]. cbn [prefix_loop].
        destruct (nth_error ps i) as [s|] eqn:Hs; [|apply nth_error_None in Hs; lia].
        destruct (nth_error vals i) as [y|] eqn:Hy; [|apply nth_error_None in Hy; lia].
        destruct (H i s y ltac:(lia) Hs Hy) as [Hr|Hr]; rewrite Hr; cbn [bind]; [|right; reflexivity].
        apply IH. lia. }
    intro lf. apply (Hgen k 0%nat lf). lia.
  Qed.
  (** an array shorter than the tuple never finishes when the schema at the
      first missing position accepts null *)
  Theorem C23_short_array_diverges n items l a vals s c :
    obj_at n items -> tuple_at items l a ->
    (forall i p y, nth_error l i = Some p -> nth_error vals i = Some y -> Accepts p y (c ++ [nat_str i])) ->
    nth_error l (List.length vals) = Some s -> Accepts s VNone (c ++ [nat_str (List.length vals)]) ->
    Diverges n (VList vals) c.
  Proof.
    intros Hn Ht Hall Hs Hacc [|f]; [reflexivity|].
    rewrite (tuple_run n items l a f _ c Hn Ht). unfold array_validate.
    destruct l as [|p0 l0]; [destruct (List.length vals); discriminate|]. set (l := p0 :: l0) in *.
    assert (Hok : forall m x c', Accepts m x c' -> val f m x c' = Ok tt \/ val f m x c' = OutOfFuel).
    { intros m x c' [f' Hf']. destruct (Nat.le_ge_cases f f') as [Hle|Hle].
      - destruct (le_validate view strx E voc f f' m x c' Hle) as [Hz|Hz]; [right; exact Hz|left; congruence].
      - left. eapply le_Ok; [|exact Hf']. apply le_validate, Hle. }
    assert (Hlen : (List.length vals < List.length l)%nat) by (apply nth_error_Some; congruence).
    destruct (prefix_walk (val f) l vals c (List.length vals) ltac:(lia) ltac:(lia)
                (fun i s y _ H1 H2 => Hok _ _ _ (Hall i s y H1 H2)) f) as [[lf' Hlf]|Hoof].
    - rewrite Hlf. rewrite (prefix_stuck_oof (val f) lf' l vals (List.length vals) c s Hs); [reflexivity| |].
      + apply nth_error_None. lia.
      + apply Hok, Hacc.
    - rewrite Hoof. reflexivity.
  Qed.
  Lemma items_loop_total m vals i c :
    (forall j y, nth_error vals j = Some y -> exists r, Outcome m y (c ++ [nat_str (i + j)]) r) ->
    exists r, r <> OutOfFuel /\ ev (fun f => items_loop (val f) m vals i c = r).
  Proof.
    revert i; induction vals as [|y vals IH]; intros i H.
    - exists (Ok tt). split; [discriminate|]. apply ev_all. reflexivity.
    - destruct (H 0%nat y eq_refl) as [r0 Hr0]. rewrite Nat.add_0_r in Hr0.
      pose proof (outcome_ev view strx E voc _ _ _ _ Hr0) as Hev.
      destruct r0 as [[]|e|]; [| |exfalso; exact (proj1 Hr0 eq_refl)].
      + destruct (IH (S i)) as (r & Hne & Hr).
        { intros j z Hz. replace (S i + j)%nat with (i + S j)%nat by lia. apply H, Hz. }
        exists r. split; [exact Hne|]. eapply ev_impl; [|exact (ev_and _ _ Hev Hr)]. intros f [H1 H2].
        cbn [items_loop]. unfold ctx_add. rewrite H1. exact H2.
      + exists (Raise e). split; [discriminate|]. eapply ev_impl; [|exact Hev]. intros f H1. cbn beta in H1.
        cbn [items_loop]. unfold ctx_add. rewrite H1. reflexivity.
  Qed.
  Lemma prefix_total ps vals c :
    (forall i s y, nth_error ps i = Some s -> nth_error vals i = Some y -> exists r, Outcome s y (c ++ [nat_str i]) r) ->
    ((List.length ps <= List.length vals)%nat \/
     exists s e, nth_error ps (List.length vals) = Some s /\
       Outcome s VNone (c ++ [nat_str (List.length vals)]) (Raise e)) ->
    exists r, r <> OutOfFuel /\ ev (fun f => prefix_loop (val f) f ps vals 0 c = r).
  Proof.
    intros Hall Hend.
    assert (Hgen : forall d i, (d + i = List.length ps)%nat -> (i <= List.length vals)%nat ->
              exists r, r <> OutOfFuel /\ exists k, ev (fun f => forall lf, (k <= lf)%nat -> prefix_loop (val f) lf ps vals i c = r)).
    { induction d as [|d IH]; intros i Hd Hi.
      - exists (Ok i). split; [discriminate|]. exists 1%nat. apply ev_all. intros f [|lf] Hlf; [lia|]. cbn [prefix_loop].
        destruct (nth_error ps i) eqn:Hp; [|reflexivity].
        assert (nth_error ps i <> None) as Hp' by congruence. apply nth_error_Some in Hp'. lia.
      - destruct (nth_error ps i) as [s|] eqn:Hs; [|apply nth_error_None in Hs; lia].
        destruct (nth_error vals i) as [y|] eqn:Hy.
        + destruct (Hall i s y Hs Hy) as [r0 Hr0]. pose proof (outcome_ev view strx E voc _ _ _ _ Hr0) as Hev.
          assert (Hi' : (i < List.length vals)%nat) by (apply nth_error_Some; congruence).
          destruct r0 as [[]|e|]; [| |exfalso; exact (proj1 Hr0 eq_refl)].
          * destruct (IH (S i) ltac:(lia) ltac:(lia)) as (r & Hne & k & Hr).
            exists r. split; [exact Hne|]. exists (S k). eapply ev_impl; [|exact (ev_and _ _ Hev Hr)].
            intros f [H1 H2] [|lf] Hlf; [lia|]. cbn [prefix_loop]. rewrite Hs, Hy. unfold ctx_add. rewrite H1. cbn [bind].
            apply H2. lia.
          * exists (Raise e). split; [discriminate|]. exists 1%nat. eapply ev_impl; [|exact Hev].
            intros f H1 [|lf] Hlf; [lia|]. cbn beta in H1. cbn [prefix_loop]. rewrite Hs, Hy. unfold ctx_add. rewrite H1. reflexivity.
        + apply nth_error_None in Hy. assert (i = List.length vals) by lia. subst i.
          destruct Hend as [Hle|(s' & e & Hs' & Hr)]; [lia|]. rewrite Hs in Hs'. injection Hs' as <-.
          pose proof (outcome_ev view strx E voc _ _ _ _ Hr) as Hev.
          exists (Raise e). split; [discriminate|]. exists 1%nat. eapply ev_impl; [|exact Hev].
          intros f H1 [|lf] Hlf; [lia|]. cbn beta in H1. cbn [prefix_loop]. rewrite Hs.
          rewrite (proj2 (nth_error_None vals (List.length vals)) ltac:(lia)). unfold ctx_add. rewrite H1. reflexivity. }
    destruct (Hgen (List.length ps) 0%nat ltac:(lia) ltac:(lia)) as (r & Hne & k & Hk).
    exists r. split; [exact Hne|]. destruct Hk as [f0 Hf0]. exists (Nat.max f0 k). intros f Hf. apply Hf0; lia.
  Qed.
  Theorem C23_arrays_terminate_partial n items l a vals c :
    obj_at n items -> tuple_at items l a ->
    (forall i s y, nth_error l i = Some s -> nth_error vals i = Some y -> exists r, Outcome s y (c ++ [nat_str i]) r) ->
    (forall s i y, a = Some s -> (List.length l <= i)%nat -> nth_error vals i = Some y ->
       exists r, Outcome s y (c ++ [nat_str i]) r) ->
    ((List.length l <= List.length vals)%nat \/
     exists s e, nth_error l (List.length vals) = Some s /\
       Outcome s VNone (c ++ [nat_str (List.length vals)]) (Raise e)) ->
    exists r, Outcome n (VList vals) c r.
  Proof.
    intros Hn Ht Hall Hrest Hend.
    destruct (prefix_total l vals c Hall Hend) as (r & Hne & Hr).
    assert (Hpre : exists r, r <> OutOfFuel /\
              ev (fun f => match l with [] => Ok O | _ => prefix_loop (val f) f l vals 0 c end = r) /\
              (forall i, r = Ok i -> i = List.length l)).
    { exists r. split; [exact Hne|]. destruct l as [|s l'].
      - destruct (ev_at_least 1 _ Hr) as (f & Hf & Hr0). destruct f as [|f]; [lia|]. simpl in Hr0. subst r.
        split; [apply ev_all; reflexivity|]. intros i Hi. injection Hi as <-. reflexivity.
      - split; [exact Hr|]. intros i ->. destruct (ev_ex _ Hr) as [f Hf].
        apply (prefix_loop_ok1 (val f)) in Hf; [tauto|lia]. }
    clear r Hne Hr. destruct Hpre as (r & Hne & Hr & Hlen).
    assert (Hfin : exists r', r' <> OutOfFuel /\ ev (fun f => array_validate (val f) f a (Some l) (VList vals) c = r')).
    { destruct r as [i|e|]; [| |congruence].
      - pose proof (Hlen i eq_refl) as ->. destruct a as [s|].
        + destruct (items_loop_total s (skipn (List.length l) vals) (List.length l) c) as (r' & Hne' & Hr').
          { intros j y Hy. apply (Hrest s (List.length l + j)%nat y eq_refl ltac:(lia)). rewrite <- Hy.
            clear. revert vals; induction (List.length l) as [|k IH]; intro vals; [reflexivity|].
            destruct vals; [destruct j; reflexivity|apply IH]. }
          exists r'. split; [exact Hne'|]. eapply ev_impl; [|exact (ev_and _ _ Hr Hr')]. intros f [H1 H2].
          unfold array_validate. destruct l; rewrite H1; exact H2.
        + exists (Ok tt). split; [discriminate|]. eapply ev_impl; [|exact Hr]. intros f H1. cbn beta in H1.
          unfold array_validate. destruct l; rewrite H1; reflexivity.
      - exists (Raise e). split; [discriminate|]. eapply ev_impl; [|exact Hr]. intros f H1. cbn beta in H1.
        unfold array_validate. destruct l; rewrite H1; reflexivity. }
    destruct Hfin as (r' & Hne' & [f Hf]). exists r'. split; [exact Hne'|]. exists (S f).
    rewrite (tuple_run n items l a f _ c Hn Ht). apply Hf. lia.
  Qed.

  (** ** C24: contains *)
  (** optional numeric member [key] with integer part [z] *)
  Definition bound_at (items : list (pystr * node)) (key : pystr) (z : option Z) : Prop :=
    match z with
    | None => dget key items = None
    | Some z => exists m d, dget key items = Some m /\ val_at m (NNum d) /\ int_part (dec_q d) z
    end.
  Lemma bound_opt items key z : bound_at items key z -> opt_bound view items key = Ok z.
  Proof.
    unfold bound_at, opt_bound, dmem, opnd. destruct z as [z|].
    - intros (m & d & Hm & Hx & Hz). unfold Claims.val_at in Hx. rewrite Hm, Hx. cbn [bind as_num nv_val nv_ref].
      rewrite (int_part_fun _ _ _ (dec_int_part d) Hz). reflexivity.
    - intros ->. reflexivity.
  Qed.
  Definition at_least_min (mn : option Z) (k : Z) : Prop := match mn with Some z => z <= k | None => 1 <= k end.
  Lemma counted_flags (P Q : pv -> Prop) l k : counted P Q l k <->
    exists flags, Forall2 (fun y (b : bool) => if b then P y else Q y) l flags /\ k = count_true flags.
  Proof.
    split.
    - induction 1 as [|x l k Hx H (fl & Hf & ->)|x l k Hx H (fl & Hf & ->)].
      + exists []. split; [constructor|reflexivity].
      + exists (true :: fl). split; [constructor; assumption|]. cbn [count_true]; lia.
      + exists (false :: fl). split; [constructor; assumption|]. cbn [count_true]; lia.
    - intros (fl & Hf & ->). induction Hf as [|x b l fl Hx Hf IH]; [constructor|]. destruct b; cbn [count_true].
      + rewrite Z.add_comm. constructor; assumption.
      + constructor; assumption.
  Qed.
  (** exact behaviour: [maxContains: 0] is not enforced *)
  Theorem C24_contains_exact n items m mn mx vals k c :
    obj_at n items -> lone items KwContains m -> (exists it, obj_at m it) ->
    bound_at items (u "minContains") mn -> bound_at items (u "maxContains") mx ->
    counted (fun y => Accepts m y []) (fun y => Rejects m y []) vals k ->
    Accepts n (VList vals) c <->
    at_least_min mn k /\ forall M, mx = Some M -> M = 0 \/ k <= M.
  Proof.
    intros Hn Hl (it & w & Hw & Hx) Hmn Hmx Hk. pose proof Hl as (_ & Hm & _).
    apply bound_opt in Hmn, Hmx.
    assert (Ha : apply view strx E KwContains items [] =
                 Ok (put KwContains (VContains m (match mn with Some z => z | None => 1 end) mx) [])).
    { unfold apply, opnd, opnd_node. rewrite Hm. cbn [bind]. rewrite Hw. cbn [bind]. unfold as_obj. rewrite Hx. cbn [bind].
      rewrite Hmn. cbn [bind]. rewrite Hmx. reflexivity. }
    assert (Hmono : forall f f' n v c, (f <= f')%nat -> le_res (val f n v c) (val f' n v c)) by (intros; apply le_validate; assumption).
    assert (Hacc : Accepts n (VList vals) c <->
              vholds view E Accepts Rejects (VContains m (match mn with Some z => z | None => 1 end) mx) (VList vals) c).
    { rewrite accepts_table. rewrite (lone_compile view strx E voc Hwf n items KwContains m _ Hn Hl eq_refl Ha). split.
      - intros (d & Hd & Hf). injection Hd as <-. inversion Hf; subst. assumption.
      - intro H. eexists. split; [reflexivity|]. constructor; [exact H|constructor]. }
    rewrite Hacc. cbn [vholds iterable].
    apply counted_flags in Hk as (fl0 & Hfl0 & ->). split.
    - intros (elems & flags & -> & Hf & H1 & H2).
      assert (flags = fl0).
      { clear - Hf Hfl0. revert fl0 Hfl0. induction Hf as [|y b l fl Hy Hf IH]; intros fl0 H; inversion H; subst; [reflexivity|].
        f_equal; [|apply IH; assumption].
        destruct b, y0; try reflexivity; exfalso; eapply (accepts_not_rejects view strx E voc); eassumption. }
      subst fl0. split.
      + unfold at_least_min. destruct mn; exact H1.
      + intros M HM. destruct (Z.eq_dec M 0); [left; assumption|right; auto].
    - intros [H1 H2]. exists vals, fl0. split; [reflexivity|]. split; [exact Hfl0|]. split.
      + unfold at_least_min in H1. destruct mn; exact H1.
      + intros M HM Hne. destruct (H2 M HM); [contradiction|assumption].
  Qed.
  Theorem C24_contains_partial n items m mn mx vals k c :
    obj_at n items -> lone items KwContains m -> (exists it, obj_at m it) ->
    bound_at items (u "minContains") mn -> bound_at items (u "maxContains") mx -> mx <> Some 0 ->
    counted (fun y => Accepts m y []) (fun y => Rejects m y []) vals k ->
    Accepts n (VList vals) c <->
    at_least_min mn k /\ forall M, mx = Some M -> k <= M.
  Proof.
    intros Hn Hl Hx Hmn Hmx Hne Hk. rewrite (C24_contains_exact n items m mn mx vals k c Hn Hl Hx Hmn Hmx Hk).
    split; intros [H1 H2]; (split; [exact H1|]); intros M HM; [|right; auto].
    destruct (H2 M HM) as [->|]; [contradiction|assumption].
  Qed.

  (** ** C25: uniqueItems *)
  (** [i] is the first position holding a value equal to an earlier one *)
  Definition first_repeat (l : list pv) (i : nat) : Prop :=
    exists j x y, (j < i)%nat /\ nth_error l j = Some x /\ nth_error l i = Some y /\ equal_values x y /\
      all_different (firstn i l).
  Lemma unique_apply items m : dget (kw_key KwUniqueItems) items = Some m -> val_at m (NBool true) ->
    apply view strx E KwUniqueItems items [] = Ok (put KwUniqueItems VUnique []).
  Proof. intros Hm Hx. unfold Claims.val_at in Hx. kw_apply Hm Hx. reflexivity. Qed.
  Lemma unique_loop_repeat l : (forall y, In y l -> unstructured y) ->
    forall i, first_repeat l i -> forall seen k c,
    (forall s x, In s seen -> In x (firstn i l) -> py_eq s x = false) ->
    unique_loop seen k l c = raise_verr KUnique (ctx_path c ++ nat_str (k + i)).
  Proof.
    intros Hu i (j & x & y & Hj & Hx & Hy & He & Hd).
    assert (Hh : forall y, In y l -> hashable y = true) by (intros z Hz; apply unstructured_hashable, Hu, Hz).
    apply equal_values_eq in He; [|eapply Hu, nth_error_In, Hx|eapply Hu, nth_error_In, Hy].
    apply all_different_distinct in Hd; [|intros z Hz; apply Hu; rewrite <- (firstn_skipn i l); apply in_or_app; left; exact Hz].
    assert (Hgen : forall l seen k c, (forall y, In y l -> hashable y = true) ->
      forall i y, nth_error l i = Some y -> 
      (exists s, (In s seen \/ exists j, (j < i)%nat /\ nth_error l j = Some s) /\ py_eq s y = true) ->
      all_distinct (firstn i l) -> (forall s x, In s seen -> In x (firstn i l) -> py_eq s x = false) ->
      unique_loop seen k l c = raise_verr KUnique (ctx_path c ++ nat_str (k + i))).
    { clear. induction l as [|z l IH]; intros seen k c Hh i y Hy Hs Hd Hsn; [destruct i; discriminate|].
      cbn [unique_loop]. rewrite (Hh z (or_introl eq_refl)). destruct i as [|i].
      - injection Hy as ->. destruct Hs as (s & [Hs|(j & Hj & _)] & He); [|lia].
        assert (Hex : existsb (fun y0 => py_eq y0 y) seen = true) by (apply existsb_exists; eauto).
        rewrite Hex, Nat.add_0_r. reflexivity.
      - simpl in Hy. assert (Hex : existsb (fun y0 => py_eq y0 z) seen = false).
        { destruct (existsb _ seen) eqn:Hx; [|reflexivity]. apply existsb_exists in Hx as (s & Hs1 & Hs2).
          rewrite (Hsn s z Hs1) in Hs2 by (left; reflexivity). discriminate. }
        rewrite Hex. replace (k + S i)%nat with (S k + i)%nat by lia.
        apply (IH (z :: seen) (S k) c (fun y0 H0 => Hh y0 (or_intror H0)) i y Hy).
        + destruct Hs as (s & [Hs|(j & Hj & Hjs)] & He).
          * exists s. split; [left; right; exact Hs|exact He].
          * destruct j as [|j]; [injection Hjs as ->; exists s; split; [left; left; reflexivity|exact He]|].
            exists s. split; [right; exists j; split; [lia|exact Hjs]|exact He].
        + intros a b p q Hab Ha Hb. apply (Hd (S a) (S b) p q); [lia|exact Ha|exact Hb].
        + intros s x [<-|Hs1] Hx.
          * apply In_nth_error in Hx as [b Hb]. apply (Hd 0%nat (S b) z x); [lia|reflexivity|exact Hb].
          * apply Hsn; [exact Hs1|right; exact Hx]. }
    intros seen k c Hsn. apply (Hgen l seen k c Hh i y Hy); [|exact Hd|exact Hsn].
    exists x. split; [right; exists j; auto|exact He].
  Qed.
  Theorem C25_unique n items m vals c :
    obj_at n items -> lone items KwUniqueItems m -> val_at m (NBool true) ->
    (forall y, In y vals -> unstructured y) ->
    (Accepts n (VList vals) c <-> all_different vals) /\
    (forall i, first_repeat vals i -> plain c ->
       Outcome n (VList vals) c (Raise (EValid (VErr KUnique (dotted c ++ nat_str i))))).
  Proof.
    intros Hn Hl Hx Hh. pose proof Hl as (_ & Hm & _). pose proof (unique_apply items m Hm Hx) as Ha. split.
    - rewrite (leaf_accepts view strx E voc Hwf n items _ m VUnique (VList vals) c (unique_validate (VList vals) c) Hn Hl eq_refl Ha (fun _ _ => eq_refl)).
      rewrite unique_ok. simpl. split.
      + intros (elems & -> & _ & H). exact H.
      + intro H. exists vals. auto.
    - intros i Hi Hc. apply (lone_leaf view strx E voc Hwf n items _ m VUnique (VList vals) c _ Hn Hl eq_refl Ha); [|discriminate].
      intros rec lf. cbn [run_vobj]. unfold unique_validate. cbn [py_iter bind].
      rewrite (unique_loop_repeat vals Hh i Hi [] 0 c); [|intros s x []].
      cbn [Nat.add]. rewrite dotted_path. apply raise_plain. apply plain_text_app; [apply plain_dotted, Hc|apply plain_nat_str].
  Qed.
  Theorem C25_unique_false n items m v c :
    obj_at n items -> lone items KwUniqueItems m -> val_at m (NBool false) -> Accepts n v c.
  Proof.
    intros Hn Hl Hx. pose proof Hl as (_ & Hm & _). pose proof Hx as Hx'. unfold Claims.val_at in Hx'.
    apply (lone_accepts view strx E voc Hwf n items KwUniqueItems m _ v c Hn Hl Hx).
    - unfold applies. kw_apply Hm Hx'. eauto.
    - exact I.
  Qed.

  (** ** C29: boolean sub-schemas *)
  Theorem C29_boolean_schemas n w b v c : view n = Ok w -> nv_val w = NBool b ->
    (b = true -> Accepts n v c) /\ (b = false -> RejectsWith n v c KFail c).
  Proof.
    intros Hw Hb. split; intros ->.
    - apply (accepts_bool view strx E voc n w true v c Hw Hb). reflexivity.
    - split; [discriminate|]. exists 1%nat. cbn [validate]. unfold compile. rewrite Hw. cbn [bind]. rewrite Hb. cbn [bind].
      rewrite for_each_one. cbn [snd run_vobj]. unfold raise_verr. simpl. rewrite dotted_path. reflexivity.
  Qed.

  (** ** C32: at most one outcome *)
  Theorem C32_one_outcome n v c r1 r2 : Outcome n v c r1 -> Outcome n v c r2 -> r1 = r2.
  Proof. apply outcome_fun. Qed.
  Theorem C32_more_stack n v c f f' r : (f <= f')%nat -> r <> OutOfFuel ->
    validate view strx E voc f n v c = r -> validate view strx E voc f' n v c = r.
  Proof.
    intros Hle Hne H. destruct (le_validate view strx E voc f f' n v c Hle) as [Hx|Hx]; congruence.
  Qed.
  Theorem C32_accept_or_reject n v c : Accepts n v c -> Rejects n v c -> False.
  Proof. apply accepts_not_rejects. Qed.
End Props.
