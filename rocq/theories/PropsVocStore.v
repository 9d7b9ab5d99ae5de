(** C111: the vocabulary given to [JsonStore.load]. *)
From Verif Require Import PyBase PyBaseFacts PyVal OrderFacts Regex Numbers Uri UriSpec UriNorm PropsUri PropsResolve Pointer Store PropsStore Validators Keywords Heap HeapFacts PropsWrap PropsPlaces PropsUriEx Doc DocMono DocFacts PropsQuery DocLoad PropsLoad Validate PropsMemoryEx ExBase VocStore.
Local Open Scope nat_scope.
Local Notation length := List.length (only parsing).

Section C111.
  Variable auth : pystr -> option authority.
  Notation vperform := (vperform auth).
  Notation vhistory := (vhistory auth).
  (** ** Specification, from the log alone *)
  Definition op_key (o : vop) : option pystr :=
    match o with
    | VAdd v _ | VLoad v _ _ => Some (base_key v)
    | VLoadStr s _ _ => match mk_uri auth s with Ok v => Some (base_key v) | _ => None end
    end.
  Definition op_made (o : vop) : Prop := match o with VAdd v _ | VLoad v _ _ => made auth v | VLoadStr _ _ _ => True end.
  (** the document a call put under [k], or found there *)
  Definition kept_by (k : pystr) (e : vop * res (option made_schema)) : option made_schema :=
    match op_key (fst e) with
    | Some k' => if str_eqb k' k then match e with (VAdd _ d, Ok _) => Some d | (_, Ok (Some d)) => Some d | _ => None end else None
    | None => None
    end.
  Fixpoint last_kept (k : pystr) (log : list (vop * res (option made_schema))) (before : option made_schema) : option made_schema :=
    match log with
    | [] => before
    | e :: log' => last_kept k log' (match kept_by k e with Some d => Some d | None => before end)
    end.
  (** what a load of a document with this vocabulary is asked to give, if the file
      has the given outcome *)
  Definition asked (voc : vocab) (out : res pv) : res made_schema :=
    match out with
    | Ok (VDict d) => Ok (MadeSchema (VDict d) voc)
    | Ok (VList l) => Ok (MadeSchema (VList l) voc)
    | Ok _ => Raise EValue
    | Raise EFileNotFound => Raise ELoad
    | Raise e => Raise e
    | OutOfFuel => OutOfFuel
    end.

  Lemma load_uri_cases voc out v st : made auth v -> load_uri auth (file_loader voc out) v st =
    match dget (base_key v) (storage st) with
    | Some d => (st, Ok d)
    | None => (match asked voc out with Ok d => Store (dset (base_key v) d (storage st)) (loader_state st) | _ => st end, asked voc out)
    end.
  Proof.
    intro Hm. unfold load_uri. rewrite (key_of_made auth v Hm). destruct (dget (base_key v) (storage st)) as [d|]; [reflexivity|]. unfold file_loader.
    destruct st as [sto []]. cbn [storage loader_state]. destruct out as [x|e|]; cbn [bind asked]; [|destruct e; reflexivity|reflexivity]. destruct x; reflexivity.
  Qed.
  Lemma vperform_storage o st st' r k : op_made o -> vperform o st = (st', r) ->
    dget k (storage st') = match kept_by k (o, r) with Some d => Some d | None => dget k (storage st) end.
  Proof.
    intros Hm H. assert (LD : forall v voc out st1 r1, made auth v -> load_uri auth (file_loader voc out) v st = (st1, r1) ->
      dget k (storage st1) = match (if str_eqb (base_key v) k then match r1 with Ok d => Some d | _ => None end else None) with Some d => Some d | None => dget k (storage st) end).
    { intros v voc out st1 r1 Hv E. rewrite load_uri_cases in E by exact Hv. destruct (dget (base_key v) (storage st)) as [d|] eqn:G.
      - injection E as <- <-. destruct (str_eqb_spec (base_key v) k) as [<-|]; [exact G|reflexivity].
      - injection E as <- <-. destruct (asked voc out) as [d|e|]; cbn [storage]; try (destruct (str_eqb (base_key v) k); reflexivity). rewrite dget_dset, str_eqb_sym. destruct (str_eqb (base_key v) k); reflexivity. }
    destruct o as [v d|v voc out|s voc out]; cbn [VocStore.vperform op_made] in *; unfold kept_by; cbn [fst op_key].
    - unfold add in H. destruct (is_absolute auth v) as [[|]|e|]; try (injection H as <- <-; cbn [bind]; destruct (str_eqb (base_key v) k); reflexivity).
      rewrite (key_of_made auth v Hm) in H. injection H as <- <-. cbn [storage bind]. rewrite dget_dset, str_eqb_sym. destruct (str_eqb (base_key v) k); reflexivity.
    - destruct (load_uri auth _ v st) as [st1 r1] eqn:E. injection H as <- <-. rewrite (LD _ _ _ _ _ Hm E). destruct (str_eqb (base_key v) k); [|reflexivity]. destruct r1; reflexivity.
    - unfold load_str in H. destruct (mk_uri auth s) as [v|e|] eqn:Es; [|injection H as <- <-; reflexivity..].
      destruct (load_uri auth _ v st) as [st1 r1] eqn:E. injection H as <- <-. rewrite (LD _ _ _ _ _ (made_text auth s v Es) E). destruct (str_eqb (base_key v) k); [|reflexivity]. destruct r1; reflexivity.
  Qed.
  Lemma vhistory_storage ops : forall st log st', Forall op_made ops -> vhistory ops st = (log, st') -> forall k, dget k (storage st') = last_kept k log (dget k (storage st)).
  Proof.
    induction ops as [|o ops IH]; intros st log st' Hm H k; cbn [VocStore.vhistory] in H; [injection H as <- <-; reflexivity|].
    destruct (vperform o st) as [st1 r] eqn:E. destruct (vhistory ops st1) as [log1 st2] eqn:E1. injection H as <- <-. inversion Hm; subst. cbn [last_kept]. rewrite <- (vperform_storage o st st1 r k) by assumption. eapply IH; eassumption.
  Qed.

  (** What a load answers after any history: the document kept under the base
      URI, with the vocabulary it was made with, else what is asked for. *)
  Theorem C111_exact ops log st v voc out : Forall op_made ops -> made auth v -> vhistory ops (Store [] tt) = (log, st) ->
    snd (vperform (VLoad v (Some voc) out) st) =
    match last_kept (base_key v) log None with
    | Some d => Ok (Some d)
    | None => d <- asked voc out ;; Ok (Some d)
    end.
  Proof.
    intros Hm Hv H. pose proof (vhistory_storage _ _ _ _ Hm H (base_key v)) as K. cbn [storage dget] in K. cbn [VocStore.vperform]. rewrite load_uri_cases by exact Hv. rewrite K.
    destruct (last_kept (base_key v) log None); reflexivity.
  Qed.
  (** A text loads what the URI it stands for loads, and fails where there is none;
      leaving the vocabulary out is giving the empty one. *)
  Theorem C111_text s voc out st :
    (forall v, mk_uri auth s = Ok v -> vperform (VLoadStr s voc out) st = vperform (VLoad v voc out) st) /\
    (forall e, mk_uri auth s = Raise e -> vperform (VLoadStr s voc out) st = (st, Raise e)) /\
    (forall v, vperform (VLoad v None out) st = vperform (VLoad v (Some no_vocab) out) st).
  Proof. cbn [VocStore.vperform]. unfold load_str. split; [intros v ->; reflexivity|]. split; [intros e ->; reflexivity|reflexivity]. Qed.
  (** The property, when nothing is kept under the base URI: no earlier call was
      for it, or each of those failed. *)
  Theorem C111_partial ops log st v voc out st' d : Forall op_made ops -> made auth v -> vhistory ops (Store [] tt) = (log, st) ->
    (forall e, In e log -> op_key (fst e) = Some (base_key v) -> exists x, snd e = Raise x) ->
    vperform (VLoad v (Some voc) out) st = (st', Ok (Some d)) -> ms_vocab d = voc /\ out = Ok (ms_value d).
  Proof.
    intros Hm Hv H Hf Hl. pose proof (C111_exact ops log st v voc out Hm Hv H) as K. rewrite Hl in K. cbn [snd] in K.
    assert (N : last_kept (base_key v) log None = None).
    { clear -Hf. induction log as [|e log IH]; [reflexivity|]. cbn [last_kept]. assert (kept_by (base_key v) e = None) as ->; [|apply IH; intros; apply Hf; [right|]; assumption].
      unfold kept_by. destruct (op_key (fst e)) as [k|] eqn:Ek; [|reflexivity]. destruct (str_eqb_spec k (base_key v)) as [->|]; [|reflexivity].
      destruct (Hf e (or_introl eq_refl) Ek) as [x Hx]. destruct e as [o r]. cbn in Hx. subst r. destruct o; reflexivity. }
    rewrite N in K. destruct out as [x|e|]; cbn [asked] in K; [|destruct e; discriminate|discriminate]. destruct x; try discriminate; injection K as ->; split; reflexivity.
  Qed.
  (** Once a load without vocabulary has succeeded, no later load of the document
      gives the vocabulary asked for, as long as nothing is added there. *)
  Theorem C111_stale ops log st v out st1 d ops' log' st' w voc out' : Forall op_made ops -> made auth v -> vhistory ops (Store [] tt) = (log, st) ->
    vperform (VLoad v None out) st = (st1, Ok (Some d)) -> Forall op_made ops' -> (forall u d, In (VAdd u d) ops' -> base_key u <> base_key v) -> vhistory ops' st1 = (log', st') ->
    made auth w -> base_key w = base_key v -> snd (vperform (VLoad w (Some voc) out') st') = Ok (Some d) /\ (last_kept (base_key v) log None = None -> ms_vocab d = no_vocab).
  Proof.
    intros Hm Hv H Hl Hm' Na H' Hw Ew. split.
    - assert (G : dget (base_key v) (storage st1) = Some d).
      { pose proof (vperform_storage _ _ _ _ (base_key v) (Hv : op_made (VLoad v None out)) Hl) as K. unfold kept_by in K. cbn [fst op_key] in K. rewrite str_eqb_refl in K. exact K. }
      assert (G' : dget (base_key v) (storage st') = Some d).
      { clear -Hm' Na H' G. revert st1 log' H' G. induction Hm' as [|o ops Ho Hm IH]; intros st1 log' H' G; cbn [VocStore.vhistory] in H'; [injection H' as <- <-; exact G|].
        destruct (vperform o st1) as [st2 r] eqn:E. destruct (vhistory ops st2) as [log2 st3] eqn:E2. injection H' as <- <-. eapply IH; [intros u0 d0 I0; exact (Na u0 d0 (or_intror I0))|exact E2|].
        destruct o as [a x|a vo ou|s vo ou].
        - rewrite (vperform_storage _ _ _ _ _ Ho E). unfold kept_by. cbn [fst op_key]. destruct (str_eqb_spec (base_key a) (base_key v)) as [C|]; [|exact G]. destruct (Na a x (or_introl eq_refl) C).
        - cbn [VocStore.vperform] in E. rewrite load_uri_cases in E by exact Ho. destruct (dget (base_key a) (storage st1)) as [y|] eqn:Ga; [injection E as <- <-; exact G|]. injection E as <- <-.
          destruct (asked _ ou); cbn [storage]; try exact G. rewrite dget_dset. destruct (str_eqb_spec (base_key v) (base_key a)) as [C|]; [congruence|exact G].
        - cbn [VocStore.vperform] in E. unfold load_str in E. destruct (mk_uri auth s) as [a|e|] eqn:Es; [|injection E as <- <-; exact G..]. rewrite load_uri_cases in E by exact (made_text auth s a Es).
          destruct (dget (base_key a) (storage st1)) as [y|] eqn:Ga; [injection E as <- <-; exact G|]. injection E as <- <-.
          destruct (asked _ ou); cbn [storage]; try exact G. rewrite dget_dset. destruct (str_eqb_spec (base_key v) (base_key a)) as [C|]; [congruence|exact G]. }
      cbn [VocStore.vperform]. rewrite load_uri_cases by exact Hw. rewrite Ew, G'. reflexivity.
    - intro N. pose proof (vhistory_storage _ _ _ _ Hm H (base_key v)) as K. cbn [storage dget] in K. rewrite N in K. cbn [VocStore.vperform] in Hl. rewrite load_uri_cases, K in Hl by exact Hv.
      destruct out as [x|e|]; cbn [asked] in Hl; [|destruct e; discriminate|discriminate]. destruct x; try discriminate; injection Hl as _ <-; reflexivity.
  Qed.
End C111.

(** A schema without vocabulary accepts every value. *)
Section Accepts.
  Variables (auth : pystr -> option authority) (dig : N -> option Z) (strx : heap -> addr -> pystr) (fetch : uri -> res pv).
  Theorem C111_accepts w x s w0 (E : env) : make_schema x (voc_apply no_vocab) w = (w0, Ok s) ->
    exists n0, forall n, n0 <= n -> forall fuel v, snd (document_validate auth dig strx fetch E (voc_assert no_vocab) n (S fuel) s v w0) = Ok tt.
  Proof.
    intro M. assert (P : exists y, nth_error (w_schemas w0) s = Some y /\ s_voc y = [] /\ holds (w_heap w0) (s_value y) x /\ match x with VDict _ | VList _ => True | _ => False end).
    { unfold make_schema in M. destruct x; try discriminate M; unfold mbind, wrap_new, new, add_schema in M; injection M as <- <-; eexists; (split; [cbn [w_schemas]; rewrite nth_error_app2, Nat.sub_diag by lia; reflexivity|]); (split; [reflexivity|]); (split; [|exact I]);
        cbn [fresh s_value w_heap]; eapply wrap_holds, placed_end. }
    destruct P as (y & Hy & Vy & Hh & Sh). assert (W : without (triggers (s_voc y)) x).
    { rewrite Vy. clear. induction x as [x Hl Hd|l IH|d IH] using pv_ind_deep; [apply wo_leaf; exact Hd|apply wo_leaf; discriminate|]. apply wo_dict. eapply Forall_impl; [|exact IH]. intros z Hz. split; [intros []|exact Hz]. }
    destruct (C45_untouched auth dig strx fetch s w0 y x Hy Hh W) as [n0 L]. exists (S n0). intros n Ln fuel v. unfold document_validate, load_n, mbind. rewrite (L n) by lia.
    rewrite (schema_at_ok (made_ready w0 s) s (Schema (s_value y) true (s_voc y) (s_anchors y) (s_id y))) by (unfold made_ready; cbn [w_schemas]; rewrite nth_upd, Nat.eqb_refl, Hy; reflexivity).
    cbn [get_world s_value]. unfold lift, schema_validate. destruct n as [|n]; [lia|]. unfold see. cbn [node_view].
    destruct x; try destruct Sh; inversion Hh as [| | | | | |? ? els V F|? ? its V F]; subst; destruct V as (nd & Hn & En); unfold mbind;
      (rewrite (node_at_ok (made_ready w0 s) (s_value y) nd) by exact Hn); rewrite En; cbn [ret snd bind nv_val]; [reflexivity|].
    cbn [validate no_vocab voc_assert compile]. unfold compile. unfold see. cbn [node_view]. unfold mbind. rewrite (node_at_ok (made_ready w0 s) (s_value y) nd) by exact Hn. rewrite En. cbn. reflexivity.
  Qed.
End Accepts.

(** ** A case *)
Definition a_uri : uri := match mk_uri toy (u "file:///a.json") with Ok v => v | _ => Uri [] (Auth [] [] []) [] [] [] end.
Definition full : vocab := Vocab core all_keywords.
Definition a_file : res pv := Ok (VDict [(u "type", VStr (u "string"))]).
(** The file is loaded without vocabulary, then with one.  The second load gives a
    schema that accepts everything; with the vocabulary asked for it would reject a number. *)
Theorem C111_refuted strx fetch : exists log st d w0 w1 s e,
  made toy a_uri /\ vhistory toy [VLoad a_uri None a_file] (Store [] tt) = (log, st) /\
  snd (vperform toy (VLoad a_uri (Some full) a_file) st) = Ok (Some d) /\ ms_vocab d <> full /\
  make_schema (ms_value d) (voc_apply (ms_vocab d)) (World [] [] []) = (w0, Ok s) /\
  (exists n0, forall n, n0 <= n -> forall fuel v, snd (document_validate toy ex_dig strx fetch ex_env (voc_assert (ms_vocab d)) n (S fuel) s v w0) = Ok tt) /\
  make_schema (ms_value d) (voc_apply full) (World [] [] []) = (w1, Ok s) /\
  snd (document_validate toy ex_dig strx fetch ex_env (voc_assert full) 9 9 s (VInt 1) w1) = Raise (EValid e).
Proof.
  do 7 eexists. split; [apply (made_text toy (u "file:///a.json")); vm_compute; reflexivity|]. split; [vm_compute; reflexivity|]. split; [vm_compute; reflexivity|]. split; [discriminate|].
  split; [vm_compute; reflexivity|]. split; [apply (C111_accepts toy ex_dig strx fetch (World [] [] []) (VDict [(u "type", VStr (u "string"))])); vm_compute; reflexivity|].
  split; [vm_compute; reflexivity|]. vm_compute. reflexivity.
Qed.
(** [C111_partial] and [C111_stale]: a first attempt fails, other documents are
    loaded, the fragment differs *)
Definition b_uri : uri := match mk_uri toy (u "file:///b.json") with Ok v => v | _ => Uri [] (Auth [] [] []) [] [] [] end.
Definition a_part : uri := match mk_uri toy (u "file:///a.json#/x") with Ok v => v | _ => Uri [] (Auth [] [] []) [] [] [] end.
Example C111_some :
  (exists log st st' d, Forall (op_made toy) [VLoad b_uri None a_file; VLoadStr (u "file:///a.json#y") None (Raise EFileNotFound); VLoad a_uri (Some full) (Ok (VInt 3))] /\ made toy a_part /\
    vhistory toy [VLoad b_uri None a_file; VLoadStr (u "file:///a.json#y") None (Raise EFileNotFound); VLoad a_uri (Some full) (Ok (VInt 3))] (Store [] tt) = (log, st) /\
    (forall e, In e log -> op_key toy (fst e) = Some (base_key a_part) -> exists x, snd e = Raise x) /\ length log = 3 /\ vperform toy (VLoad a_part (Some full) a_file) st = (st', Ok (Some d))) /\
  (exists st1 d log' st', vperform toy (VLoad a_uri None a_file) (Store [] tt) = (st1, Ok (Some d)) /\ vhistory toy [VAdd b_uri (MadeSchema VNone full); VLoad a_part (Some full) (Raise EFileNotFound)] st1 = (log', st') /\
    base_key b_uri <> base_key a_uri /\ made toy b_uri /\ base_key a_part = base_key a_uri).
Proof.
  assert (A : made toy a_uri) by (apply (made_text toy (u "file:///a.json")); vm_compute; reflexivity).
  assert (B : made toy b_uri) by (apply (made_text toy (u "file:///b.json")); vm_compute; reflexivity).
  assert (C : made toy a_part) by (apply (made_text toy (u "file:///a.json#/x")); vm_compute; reflexivity).
  split.
  - do 4 eexists. split; [repeat constructor; assumption|]. split; [exact C|]. split; [vm_compute; reflexivity|]. split; [|split; [reflexivity|vm_compute; reflexivity]].
    intros e He. cbn in He. destruct He as [<-|[<-|[<-|[]]]]; intro K; [vm_compute in K; discriminate|eexists; reflexivity|eexists; reflexivity].
  - do 4 eexists. split; [vm_compute; reflexivity|]. split; [vm_compute; reflexivity|]. split; [vm_compute; discriminate|]. split; [exact B|vm_compute; reflexivity].
Qed.
