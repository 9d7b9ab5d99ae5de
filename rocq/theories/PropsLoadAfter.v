(** C78 in general: a document that cannot be loaded once another one was. *)
From Verif Require Import PyBase PyBaseFacts PyVal OrderFacts Regex Numbers Uri Pointer PropsPointer Store Validators Heap HeapFacts PropsWrap PropsPlaces Doc DocMono DocFacts PropsQuery DocLoad PropsLoad DocDocument PropsAnchor PropsRef DocLibrary PropsRefEdge PropsUriEx PropsRetry DocReading PropsRemote PropsRemoteEx.
Local Open Scope nat_scope.
Local Notation length := List.length (only parsing).

(** The first object with a keyword of the core, members before the object they are
    in, is [d], at the path [q]. *)
Inductive first_at : pv -> list pystr -> list (pystr * pv) -> Prop :=
| fa_here d : Forall (fun kx => without (triggers core) (snd kx)) d -> first_at (VDict d) [] d
| fa_member l k y r q d : Forall (fun kx => without (triggers core) (snd kx)) l -> first_at y q d -> first_at (VDict (l ++ (k, y) :: r)) (k :: q) d.

Section After.
  Variables (auth : pystr -> option authority) (dig : N -> option Z) (strx : heap -> addr -> pystr) (fetch : uri -> res pv).
  Notation Runs := (Runs auth dig strx fetch).
  Notation ev := (ev auth dig strx fetch).

  (** The document known as [k] is loaded, and its root is an object with the id
      [vi], an absolute URI. *)
  Definition loaded_with_id (w : world) (k : pystr) : Prop :=
    exists dst y tgt c ti vi, dget k (w_store w) = Some dst /\ nth_error (w_schemas w) dst = Some y /\ s_ready y = true /\
      val (w_heap w) (s_value y) (PObj tgt) /\ NoDup (dkeys tgt) /\ dget (u "$anchor") tgt = None /\ id_member tgt = Some c /\ val (w_heap w) c (PStr ti) /\
      mk_uri auth ti = Ok vi /\ u_frag vi = [] /\ is_absolute auth vi = Ok true.
  (** a reference to the whole document known as [k] *)
  Definition refers_to (d : list (pystr * pv)) (k : pystr) : Prop :=
    exists t v b, dget (u "$ref") d = Some (VStr t) /\ mk_uri auth t = Ok v /\ u_frag v = [] /\ base_uri auth v = Ok b /\ uri_bool b = true /\ key_of auth v = Ok k /\
      dget (u "$anchor") d = None /\ id_member d = None /\ NoDup (dkeys d).

  Lemma stops_here w s x a par key its d k f pth : nth_error (w_schemas w) s = Some x -> hget (w_heap w) a = Some (Node (PObj its) (Some par) key) ->
    Forall2 (fun ka kx => fst ka = fst kx /\ holds (w_heap w) (snd ka) (snd kx)) its d -> refers_to d k -> loaded_with_id w k ->
    keys_up f (w_heap w) par = Ok pth -> ~ In (u "enum") (pth ++ [key]) -> f <= length (w_heap w) ->
    exists w', ev (fun rec => apply_kws auth strx fetch rec core s a) w w' (Raise EValue).
  Proof.
    intros Hx Ha F (t & v & b & Gt & Mt & Ft & Bt & Ut & Kt & Gan & Gid & Nd) (dst & y & tgt & c & ti & vi & Sk & Hy & Ry & Vf & Nt & Tan & Tid & Vc & Mi & Fi & Ab) Kp Ne Lf.
    assert (V : val (w_heap w) a (PObj its)) by (eexists; split; [exact Ha|reflexivity]).
    assert (G : forall k, match dget k d with Some z => exists c, dget k its = Some c /\ holds (w_heap w) c z | None => dget k its = None end) by (intro; apply (dget_forall2 _ _ _ _ F)).
    pose proof (G (u "$ref")) as Gr. rewrite Gt in Gr. destruct Gr as (cr & Gr & Hr). assert (Vr : val (w_heap w) cr (PStr t)) by (inversion Hr; assumption).
    pose proof (G (u "$anchor")) as Ga. rewrite Gan in Ga.
    assert (Ndi : NoDup (dkeys its)).
    { assert (E : dkeys its = dkeys d) by (clear -F; unfold dkeys; induction F as [|[k1 c1] [k2 x2] its d [E _] _ IH]; [reflexivity|cbn in *; congruence]). rewrite E. exact Nd. }
    assert (Iid : dget (u "$id") its = None /\ dget (u "id") its = None).
    { unfold id_member in Gid. pose proof (G (u "$id")) as G1. pose proof (G (u "id")) as G2. destruct (dget (u "$id") d); [discriminate|]. rewrite Gid in G2. split; assumption. }
    set (a' := length (w_heap w)). set (rf := RefData v a dst []). set (nd := Node (PRef rf) (Some par) key).
    set (w1 := World (w_heap w ++ [nd]) (w_schemas w) (w_store w)).
    assert (Mono : forall z p, val (w_heap w) z p -> val (w_heap w1) z p) by (intros z p (n & Hn & En); exists n; split; [apply hget_app1, Hn|exact En]).
    assert (Ha' : hget (w_heap w1) a' = Some nd) by (cbn [w1 w_heap]; unfold a'; rewrite <- (Nat.add_0_r (length (w_heap w))); rewrite hget_app2; reflexivity).
    assert (Rq : Runs (CQuery dst []) w1 w1 (Ok (s_value y))).
    { apply ev_step, ev_pure. intro rec. cbn [Doc.step]. unfold query. unfold mbind at 1. rewrite (load_ready w1 dst y Hy Ry). unfold mbind at 1. rewrite (schema_at_ok w1 dst y Hy). reflexivity. }
    pose (own' := filter (fun kx => negb (str_eqb (fst kx) (u "$ref"))) its).
    pose (all := fold_left (fun acc kx => dset (fst kx) (snd kx) acc) tgt (fold_left (fun acc kx => dset (fst kx) (snd kx) acc) own' [])).
    assert (All : forall j, dget j all = match dget j tgt with Some z => Some z | None => if str_eqb j (u "$ref") then None else dget j its end).
    { intro j. unfold all, own'. rewrite (dget_update tgt Nt), dget_update by (apply NoDup_filter_keys, Ndi). rewrite dget_filter_ne. cbn [dget]. destruct (dget j tgt); [reflexivity|]. destruct (str_eqb j (u "$ref")); [reflexivity|]. destruct (dget j its); reflexivity. }
    assert (Raw : Runs (CRaw a') w1 w1 (Ok (RDict all))).
    { apply ev_step. cbn [Doc.step]. unfold ref_raw. eapply ev_known; [apply node_at_ok, Ha'|]. cbn [nd n_val rf r_schema r_pointer r_node]. eapply ev_known; [apply (schema_at_ok w1 dst y Hy)|]. rewrite Ry.
      eapply ev_bind; [exact Rq|]. eapply ev_bind; [apply (runs_type _ _ _ _ w1 _ _ (Mono _ _ Vf) eq_refl)|]. cbn [kind_of].
      eapply ev_bind; [apply ev_pure; intro rec; apply items_obj, Mono, V|]. eapply ev_bind; [apply ev_pure; intro rec; apply items_obj, Mono, Vf|]. apply ev_ret. }
    assert (Has : forall j, ev (fun rec => node_has rec a' (KS j)) w1 w1 (Ok (dmem j all))).
    { intro j. unfold node_has. eapply ev_known; [apply node_at_ok, Ha'|]. cbn [nd n_val]. eapply ev_bind; [exact Raw|]. apply ev_ret. }
    assert (Mem : forall j, dget j all = Some c -> ev (fun rec => member_str strx rec a' j) w1 w1 (Ok ti)).
    { intros j Gj. unfold member_str. eapply ev_bind with (a := c).
      - unfold node_get. eapply ev_known; [apply node_at_ok, Ha'|]. cbn [nd n_val]. eapply ev_bind; [exact Raw|]. apply ev_pure. intro rec. unfold lift. cbn [dict_get]. rewrite Gj. reflexivity.
      - apply ev_pure. intro rec. unfold node_str. destruct (Mono _ _ Vc) as (n & Hn & En). rewrite Hn. destruct n as [z p0 k0]. cbn [n_val] in En. subst z. reflexivity. }
    exists w1. unfold core. cbn [apply_kws kw_names apply_kw].
    (* $ref *)
    eapply ev_bind with (a := true); [apply ev_pure; intro rec; rewrite (any_has_obj rec w a its _ V); cbn [existsb]; rewrite dmem_get, Gr; reflexivity|].
    eapply ev_bind with (a := a') (w1 := w1).
    { apply ev_pure. intro rec. unfold apply_ref. unfold mbind at 1. rewrite (member_obj strx rec w a its _ cr t V Gr Vr). unfold lift at 1. rewrite Mt. unfold mbind at 1. unfold lift at 1. rewrite Ft. 
      change (pointer_parse []) with (@Ok (list pystr) []). unfold mbind at 1. unfold lift at 1. rewrite Bt. unfold mbind at 1. unfold mbind at 1. rewrite (node_at_ok _ _ _ Ha), Ut.
      unfold mbind at 1. rewrite (schema_at_ok _ _ _ Hx). unfold mbind at 1. unfold store_load, store_key. unfold mbind at 1. unfold lift at 1. rewrite Kt. unfold mbind at 1. unfold get_world. rewrite Sk. reflexivity. }
    (* $anchor *)
    eapply ev_bind with (a := false) (w1 := w1).
    { cbn [any_has]. eapply ev_bind; [apply Has|]. rewrite dmem_get, All, Tan, Ga. cbn. apply ev_ret. }
    eapply ev_bind with (a := a') (w1 := w1); [apply ev_ret|].
    (* $id *)
    assert (Idk : (dget (u "$id") all = Some c) \/ (dget (u "$id") all = None /\ dget (u "id") all = Some c)).
    { unfold id_member in Tid. rewrite !All. destruct (dget (u "$id") tgt); [left; exact Tid|]. right. rewrite Tid. destruct Iid as [-> _]. split; [destruct (str_eqb _ _); reflexivity|reflexivity]. }
    eapply ev_bind with (a := true) (w1 := w1).
    { cbn [any_has]. eapply ev_bind; [apply Has|]. rewrite dmem_get. destruct Idk as [->|[-> Idk]]; [apply ev_ret|]. eapply ev_bind; [apply Has|]. rewrite dmem_get, Idk. apply ev_ret. }
    eapply ev_bind_raise. unfold apply_id. eapply ev_bind with (a := ti) (w1 := w1).
    { unfold id_text. eapply ev_bind; [apply Has|]. rewrite dmem_get. destruct Idk as [Idk|[E Idk]]; [rewrite Idk; apply Mem, Idk|rewrite E; apply Mem, Idk]. }
    eapply ev_known; [unfold lift; rewrite Mi; reflexivity|]. rewrite Fi. eapply ev_known; [apply node_at_ok, Ha'|]. cbn [nd n_parent n_val].
    assert (Pth : node_path (w_heap w1) a' = Ok (pth ++ [key])).
    { unfold node_path. apply (keys_up_more _ (S f)); [|discriminate|cbn [w1 w_heap]; rewrite app_length; cbn; lia]. cbn [keys_up]. change (hget (w_heap w1) a' = Some nd) in Ha'. rewrite Ha'. cbn [nd n_parent n_key].
      pose proof (keys_up_same _ _ (same_links_app (w_heap w) [nd]) _ _ _ Kp) as K. change (w_heap w ++ [nd]) with (w_heap w1) in K. change (bind (keys_up f (w_heap w1) par) (fun ks => Ok (ks ++ [key])) = Ok (pth ++ [key])). rewrite K. reflexivity. }
    eapply ev_known; [reflexivity|]. eapply ev_known; [unfold lift; rewrite Pth; reflexivity|].
    assert (str_mem (u "enum") (pth ++ [key]) = false) as -> by (apply str_mem_false; exact Ne).
    eapply ev_known; [unfold lift; rewrite Ab; reflexivity|]. eapply ev_bind; [apply ev_ret|]. apply ev_pure. intro rec. reflexivity.
  Qed.

  Lemma process_first v q d : first_at v q d -> forall w s x base par key pth k, nth_error (w_schemas w) s = Some x -> s_voc x = core ->
    placed (w_heap w) base (wrap base par key v) -> keys_up (S base) (w_heap w) base = Ok pth -> pth ++ q <> [] -> ~ In (u "enum") (pth ++ q) ->
    (forall p, par = Some p -> p < base) -> refers_to d k -> loaded_with_id w k -> exists w', Runs (CProcess s base) w w' (Raise EValue).
  Proof.
    induction 1 as [d F|l k0 y r q d F _ IH]; intros w s x base par key pth k Hx Vx P Kp Nq Ne Hp Rf Ld; rewrite wrap_dict in P; apply placed_cons in P as [P1 P2];
      pose proof (items_held _ _ _ _ P2) as Hd; unfold held in Hd.
    - set (its := fst (wrap_items base (S base) d)) in *. rewrite app_nil_r in *.
      assert (V : val (w_heap w) base (PObj its)) by (eexists; split; [exact P1|reflexivity]).
      cbn [keys_up] in Kp. rewrite P1 in Kp. cbn [n_parent n_key] in Kp. destruct par as [p|]; [|injection Kp as <-; destruct (Nq eq_refl)]. specialize (Hp p eq_refl).
      destruct (keys_up base (w_heap w) p) as [ks|e|] eqn:Ek; try discriminate. injection Kp as <-.
      assert (Lb : base < length (w_heap w)) by (apply hget_lt in P1; exact P1).
      destruct (stops_here w s x base p key its d k base ks Hx P1 Hd Rf Ld Ek Ne ltac:(lia)) as (w' & E).
      exists w'. apply ev_step. cbn [Doc.step]. unfold process. eapply ev_bind; [apply (runs_type _ _ _ _ w base _ V eq_refl)|]. cbn [kind_of]. eapply ev_bind; [apply ev_pure; intro rec; apply (items_obj rec w base its V)|].
      eapply ev_bind; [eapply items_free; eassumption|]. eapply ev_known; [apply node_at_ok, P1|]. cbn [n_val].
      eapply ev_known with (w1 := w) (a := tt); [unfold set_value; rewrite (hset_same _ _ _ V); destruct w; reflexivity|].
      eapply ev_known; [apply schema_at_ok, Hx|]. rewrite Vx. exact E.
    - assert (V : val (w_heap w) base (PObj (fst (wrap_items base (S base) (l ++ (k0, y) :: r))))) by (eexists; split; [exact P1|reflexivity]).
      rewrite wrap_items_app, wrap_items_cons in V, P2, Hd. cbn [fst snd] in V, P2, Hd. set (i1 := fst (wrap_items base (S base) l)) in *. set (n1 := snd (wrap_items base (S base) l)) in *. set (c := after (S base) n1) in *.
      assert (Lc : base < c) by (unfold c, after; lia).
      apply placed_app in P2 as [P3 P2]. pose proof (items_held _ _ _ _ P3) as F1. fold i1 in F1. apply placed_app in P2 as [Pc _]. fold (after (S base) n1) in Pc. fold c in Pc.
      destruct (placed_head _ _ _ _ _ Pc) as (m & Hm & Em1 & Em2).
      assert (Kc : keys_up (S c) (w_heap w) c = Ok (pth ++ [k0])) by (cbn [keys_up]; rewrite Hm, Em1, (keys_up_more _ _ _ _ Kp ltac:(discriminate) c ltac:(lia)), Em2; reflexivity).
      destruct (IH w s x c (Some base) k0 _ k Hx Vx Pc Kc) as (w' & E); [rewrite <- app_assoc; exact Nq|rewrite <- app_assoc; exact Ne|intros p [= <-]; exact Lc|exact Rf|exact Ld|].
      exists w'. apply ev_step. cbn [Doc.step]. unfold process. eapply ev_bind; [apply (runs_type _ _ _ _ w base _ V eq_refl)|]. cbn [kind_of]. eapply ev_bind; [apply ev_pure; intro rec; apply (items_obj rec w base _ V)|].
      eapply ev_bind_raise. clearbody c. clear -F F1 E Hx Vx. revert F1. generalize i1. generalize (fst (wrap_items base (after c (wrap c (Some base) k0 y)) r)). clear i1. intro tl. induction F as [|[k2 z] l Hz F IHl]; intros i1 F1; inversion F1 as [|[k3 c3] ? i4 ? [E1 E2] F4]; subst; cbn [app mmap].
      + eapply ev_bind_raise. eapply ev_bind_raise. exact E.
      + cbn [fst snd] in *. eapply ev_bind with (a := (k3, c3)); [eapply ev_bind; [eapply process_free; [exact E2|exact Hx|rewrite Vx; exact Hz]|apply ev_ret]|]. eapply ev_bind_raise. apply IHl. exact F4.
  Qed.

  (** The document [V] was wrapped as the schema [s], by JsonSchema(V), and not loaded. *)
  Definition waiting (w : world) (s : nat) (V : pv) : Prop :=
    exists x, nth_error (w_schemas w) s = Some x /\ s_voc x = core /\ s_ready x = false /\ placed (w_heap w) (s_value x) (wrap (s_value x) None [] V).
  (** Once a document whose root declares its absolute id is loaded, a document that
      refers to the whole of it below its own root cannot be: whatever the two say
      besides, the load of the second raises ValueError. *)
  Theorem C78_after_load w s V q d k : waiting w s V -> first_at V q d -> q <> [] -> ~ In (u "enum") q -> refers_to d k -> loaded_with_id w k ->
    exists w', ev (fun rec => load rec s) w w' (Raise EValue).
  Proof.
    intros (x & Hs & Vx & Rx & P) Fa Nq Ne Rf Ld.
    destruct (placed_head _ _ _ _ _ P) as (m & Hm & Em1 & Em2).
    destruct (process_first _ _ _ Fa w s _ (s_value x) None [] [] k Hs Vx P) as (w' & E); cbn [app]; auto.
    - cbn [keys_up]. rewrite Hm, Em1. reflexivity.
    - intros p [=].
    - exists w'. unfold load. eapply ev_known; [apply schema_at_ok, Hs|]. rewrite Rx. eapply ev_bind_raise. exact E.
  Qed.
  Theorem C78_after_load_new w V s w0 q d k : opened w V s w0 -> first_at V q d -> q <> [] -> ~ In (u "enum") q -> refers_to d k -> loaded_with_id w k ->
    exists w', ev (fun rec => load rec s) w0 w' (Raise EValue).
  Proof.
    intros O Fa Nq Ne Rf Ld. assert (exists d0, V = VDict d0) as [d0 ->] by (inversion Fa; eauto). destruct (opened_dict _ _ _ _ O) as (Es & Est & Ess & Eh).
    apply (C78_after_load w0 s (VDict d0) q d k); auto.
    - exists (fresh (length (w_heap w)) core). split; [rewrite Ess, Es, nth_error_app2, Nat.sub_diag by lia; reflexivity|]. split; [reflexivity|]. split; [reflexivity|]. cbn [fresh s_value]. rewrite Eh. apply placed_end.
    - destruct Ld as (dst & y & tgt & c & ti & vi & Sk & Hy & Ry & (n1 & Hn1 & En1) & Nt & Tan & Tid & (n2 & Hn2 & En2) & R).
      exists dst, y, tgt, c, ti, vi. rewrite Est, Ess, Eh. repeat split; auto; try tauto; [rewrite nth_error_app1; [exact Hy|apply nth_error_Some; congruence]|exists n1; split; [apply hget_app1, Hn1|exact En1]|exists n2; split; [apply hget_app1, Hn2|exact En2]].
  Qed.
End After.

(** The history of [C78_refuted]: the document is waiting, the other one is loaded. *)
Example C78_after_load_some strx : exists d1, history toy ex_dig strx (from C78_shelf) (fun _ => True) (Desk start_world [] []) d1 /\
  waiting (d_world d1) 1 C78_value /\ first_at C78_value [u "x"] [(u "$ref", VStr (u "http://h/a.json"))] /\
  refers_to toy [(u "$ref", VStr (u "http://h/a.json"))] (u "http://h/a.json") /\ loaded_with_id toy (d_world d1) (u "http://h/a.json").
Proof.
  eexists. split; [|split; [|split; [|split]]].
  - eapply hs_then; [eapply hs_then; [eapply hs_then; [eapply hs_then; [apply hs_none|]|]|]|].
    + apply (a_open _ _ _ _ _ _ [] [] C78_value 0); [exact I|reflexivity].
    + apply (a_open _ _ _ _ _ _ _ [] C78_value 1); [exact I|reflexivity].
    + eapply (a_query _ _ _ _ _ _ _ _ 0 C78_value [u "x"] _ (Ok 9)); [right; left; reflexivity|apply (Runs_once _ _ _ _ _ _ _ _ 8); [vm_compute; reflexivity|discriminate]|discriminate].
    + eapply (a_type _ _ _ _ _ _ _ _ 9 _ (Ok JObj)); [left; reflexivity|apply (Runs_once _ _ _ _ _ _ _ _ 8); [vm_compute; reflexivity|discriminate]|discriminate].
  - eexists. split; [reflexivity|]. split; [reflexivity|]. split; [reflexivity|].
    intros i n Hn. do 3 (destruct i as [|i]; [injection Hn as <-; reflexivity|]). destruct i; discriminate.
  - apply (fa_member []); [constructor|]. apply fa_here. repeat constructor; intros; discriminate.
  - eexists. eexists. eexists. split; [reflexivity|]. split; [vm_compute; reflexivity|]. split; [reflexivity|]. split; [vm_compute; reflexivity|]. split; [reflexivity|]. split; [vm_compute; reflexivity|]. split; [reflexivity|]. split; [reflexivity|]. repeat constructor; auto.
  - do 6 eexists. split; [reflexivity|]. split; [reflexivity|]. split; [reflexivity|]. split; [eexists; split; reflexivity|]. split; [repeat constructor; cbn; intuition discriminate|]. split; [reflexivity|]. split; [reflexivity|]. split; [eexists; split; reflexivity|]. split; [vm_compute; reflexivity|]. split; vm_compute; reflexivity.
Qed.
