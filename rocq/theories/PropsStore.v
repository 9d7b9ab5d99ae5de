(** C51, C52: the document store. *)
From Verif Require Import PyBase PyBaseFacts Regex Uri UriSpec UriNorm PropsUri PropsResolve Store.
Local Notation length := List.length (only parsing).

Section Store.
  Variable auth : pystr -> option authority.
  Context {D L : Type} (loader : uri -> L -> L * res D).
  Notation store := (@store D L).

  (** ** Histories *)
  Inductive op :=
  | Add (v : uri) (d : D) | Get (v : uri) | GetStr (s : pystr) | In_ (v : uri) | InStr (s : pystr) | Load (v : uri) | LoadStr (s : pystr).
  Inductive answer := Done (r : res unit) | Doc (r : res D) | Flag (r : res bool).
  Definition perform (o : op) (st : store) : store * answer :=
    match o with
    | Add v d => let (st', r) := add auth v d st in (st', Done r)
    | Get v => (st, Doc (get auth v st))
    | GetStr s => (st, Doc (get_str s st))
    | In_ v => (st, Flag (contains auth v st))
    | InStr s => (st, Flag (Ok (contains_str s st)))
    | Load v => let (st', r) := load_uri auth loader v st in (st', Doc r)
    | LoadStr s => let (st', r) := load_str auth loader s st in (st', Doc r)
    end.
  Fixpoint history (ops : list op) (st : store) : list (op * answer) * store :=
    match ops with
    | [] => ([], st)
    | o :: ops' => let (st1, a) := perform o st in let (log, st2) := history ops' st1 in ((o, a) :: log, st2)
    end.

  (** ** Specification: read off the log alone *)
  (** the text of scheme, authority and path *)
  Definition base_key (v : uri) : pystr := uri_text (Uri (u_scheme v) (u_auth v) (u_path v) [] []).
  (** the document an entry of the log put under [k], if any *)
  Definition puts (k : pystr) (e : op * answer) : option D :=
    match e with
    | (Add v d, Done (Ok _)) => if str_eqb (base_key v) k then Some d else None
    | (Load v, Doc (Ok d)) => if str_eqb (base_key v) k then Some d else None
    | (LoadStr s, Doc (Ok d)) =>
        match mk_uri auth s with Ok v => if str_eqb (base_key v) k then Some d else None | _ => None end
    | _ => None
    end.
  Fixpoint latest (k : pystr) (log : list (op * answer)) (before : option D) : option D :=
    match log with
    | [] => before
    | e :: log' => latest k log' (match puts k e with Some d => Some d | None => before end)
    end.
  (** the URIs a history mentions are ones a program can have *)
  Definition op_uri (o : op) : Prop :=
    match o with Add v _ | Get v | In_ v | Load v => made auth v | _ => True end.

  Lemma key_of_made v : made auth v -> key_of auth v = Ok (base_key v).
  Proof.
    intro Hm. destruct (made_settled auth v Hm) as (S1 & _). destruct v as [sc a p q f]. cbn in S1. unfold key_of, base_uri, copy_with, base_key. cbn [bind u_scheme u_auth u_path].
    destruct sc as [|c sc]; [reflexivity|]. rewrite S1 by discriminate. reflexivity.
  Qed.
  Lemma dget_dset' k k' (d : D) m : dget k (dset k' d m) = if str_eqb k' k then Some d else dget k m.
  Proof. rewrite dget_dset, str_eqb_sym. reflexivity. Qed.
  Lemma perform_storage o st st' a k : op_uri o -> perform o st = (st', a) ->
    dget k (storage st') = match puts k (o, a) with Some d => Some d | None => dget k (storage st) end.
  Proof.
    intros Hu H. destruct o as [v d|v|s|v|s|v|s]; cbn [perform op_uri] in *.
    - unfold add in H. destruct (is_absolute auth v) as [[|]| |]; try (injection H as <- <-; reflexivity).
      rewrite (key_of_made v Hu) in H. injection H as <- <-. cbn [storage puts]. rewrite dget_dset'. destruct (str_eqb _ k); reflexivity.
    - injection H as <- <-. cbn. destruct (get auth v st); reflexivity.
    - injection H as <- <-. cbn. destruct (get_str s st); reflexivity.
    - injection H as <- <-. reflexivity.
    - injection H as <- <-. reflexivity.
    - destruct (load_uri auth loader v st) as [st1 r] eqn:E. injection H as <- <-. unfold load_uri in E. rewrite (key_of_made v Hu) in E.
      destruct (dget (base_key v) (storage st)) as [d|] eqn:G.
      + injection E as <- <-. cbn [puts]. destruct (str_eqb (base_key v) k) eqn:Ek; [|reflexivity]. apply str_eqb_eq in Ek as <-. exact G.
      + destruct (loader v (loader_state st)) as [l r']. destruct r' as [d|e|].
        * injection E as <- <-. cbn [storage puts]. rewrite dget_dset'. destruct (str_eqb _ k); reflexivity.
        * destruct e; injection E as <- <-; reflexivity.
        * injection E as <- <-. reflexivity.
    - destruct (load_str auth loader s st) as [st1 r] eqn:E. injection H as <- <-. unfold load_str in E. cbn [puts].
      destruct (mk_uri auth s) as [v|e|] eqn:Ev; [|injection E as <- <-; reflexivity..].
      assert (Hm : made auth v) by exact (made_text auth s v Ev). unfold load_uri in E. rewrite (key_of_made v Hm) in E.
      destruct (dget (base_key v) (storage st)) as [d|] eqn:G.
      + injection E as <- <-. destruct (str_eqb (base_key v) k) eqn:Ek; [|reflexivity]. apply str_eqb_eq in Ek as <-. exact G.
      + destruct (loader v (loader_state st)) as [l r']. destruct r' as [d|e|].
        * injection E as <- <-. cbn [storage puts]. rewrite dget_dset'. destruct (str_eqb _ k); reflexivity.
        * destruct e; injection E as <- <-; reflexivity.
        * injection E as <- <-. reflexivity.
  Qed.
  Lemma history_storage ops : forall st log st', Forall op_uri ops -> history ops st = (log, st') ->
    forall k, dget k (storage st') = latest k log (dget k (storage st)).
  Proof.
    induction ops as [|o ops IH]; intros st log st' Hu H k; cbn in H.
    - injection H as <- <-. reflexivity.
    - destruct (perform o st) as [st1 a] eqn:E. destruct (history ops st1) as [log1 st2] eqn:E1. injection H as <- <-.
      inversion Hu; subst. cbn [latest]. rewrite <- (perform_storage o st st1 a k) by assumption. apply (IH st1 log1 st2); assumption.
  Qed.

  (** ** C51 *)
  Theorem C51_history ops l log st : Forall op_uri ops -> history ops (Store [] l) = (log, st) ->
    (forall v, made auth v ->
       get auth v st = match latest (base_key v) log None with Some d => Ok d | None => Raise (EKey (base_key v)) end /\
       contains auth v st = Ok (match latest (base_key v) log None with Some _ => true | None => false end)) /\
    (forall s,
       get_str s st = match latest s log None with Some d => Ok d | None => Raise (EKey s) end /\
       contains_str s st = match latest s log None with Some _ => true | None => false end).
  Proof.
    intros Hu H. pose proof (history_storage ops _ _ _ Hu H) as K. cbn [storage dget] in K. split.
    - intros v Hv. unfold get, contains, get_str, contains_str, dmem. rewrite (key_of_made v Hv). cbn [bind]. rewrite K. split; reflexivity.
    - intro s. unfold get_str, contains_str, dmem. rewrite K. split; reflexivity.
  Qed.
  (** a URI that is not absolute is refused and nothing changes; an absolute one is taken *)
  Theorem C51_relative v (d : D) (st : store) : made auth v ->
    (is_absolute auth v = Ok false -> add auth v d st = (st, Raise EValue)) /\
    (is_absolute auth v = Ok true -> exists st', add auth v d st = (st', Ok tt) /\ get auth v st' = Ok d /\ loader_state st' = loader_state st).
  Proof.
    intro Hm. unfold add. split; intros ->; [reflexivity|]. rewrite (key_of_made v Hm). eexists. split; [reflexivity|].
    unfold get, get_str. rewrite (key_of_made v Hm). cbn [bind storage loader_state]. rewrite dget_dset', str_eqb_refl. auto.
  Qed.
  (** query and fragment do not matter *)
  Theorem C51_key v w : made auth v -> made auth w -> u_scheme v = u_scheme w -> u_auth v = u_auth w -> u_path v = u_path w ->
    forall st : store, get auth v st = get auth w st /\ contains auth v st = contains auth w st.
  Proof.
    intros Hv Hw E1 E2 E3 st. unfold get, contains. rewrite (key_of_made v Hv), (key_of_made w Hw). unfold base_key. rewrite E1, E2, E3. auto.
  Qed.

  (** ** C52 *)
  (** a stored document is returned; the loader is not asked and nothing changes *)
  Theorem C52_stored v st d : get auth v st = Ok d -> load_uri auth loader v st = (st, Ok d).
  Proof.
    unfold get, load_uri, get_str. destruct (key_of auth v) as [k| |]; cbn [bind]; try discriminate. destruct (dget k (storage st)); [|discriminate]. intros [= ->]. reflexivity.
  Qed.
  (** otherwise the loader decides *)
  Theorem C52_loader v st : made auth v -> (forall d, get auth v st <> Ok d) ->
    let l := fst (loader v (loader_state st)) in
    match snd (loader v (loader_state st)) with
    | Ok d => exists st', load_uri auth loader v st = (st', Ok d) /\ loader_state st' = l /\ get auth v st' = Ok d /\
                (forall w, made auth w -> base_key w <> base_key v -> get auth w st' = get auth w st)
    | Raise EFileNotFound => load_uri auth loader v st = (Store (storage st) l, Raise ELoad)
    | Raise e => load_uri auth loader v st = (Store (storage st) l, Raise e)
    | OutOfFuel => load_uri auth loader v st = (Store (storage st) l, OutOfFuel)
    end.
  Proof.
    intros Hm Hn l. unfold load_uri. unfold get, get_str in Hn. rewrite (key_of_made v Hm) in *. cbn [bind] in Hn.
    destruct (dget (base_key v) (storage st)) as [d|] eqn:G; [exfalso; exact (Hn d eq_refl)|]. subst l.
    destruct (loader v (loader_state st)) as [l r]. cbn [fst snd]. destruct r as [d|e|]; [|destruct e; reflexivity|reflexivity].
    eexists. split; [reflexivity|]. cbn [loader_state storage]. split; [reflexivity|]. split.
    - unfold get, get_str. rewrite (key_of_made v Hm). cbn [bind storage]. rewrite dget_dset', str_eqb_refl. reflexivity.
    - intros w Hw Hk. unfold get, get_str. rewrite (key_of_made w Hw). cbn [bind storage]. rewrite dget_dset'.
      replace (str_eqb (base_key v) (base_key w)) with false; [reflexivity|]. symmetry. apply str_eqb_neq. congruence.
  Qed.
  (** a failed load stores nothing *)
  Theorem C52_no_trace v st st' r : load_uri auth loader v st = (st', r) -> (forall d, r <> Ok d) -> storage st' = storage st.
  Proof.
    unfold load_uri. destruct (key_of auth v) as [k|e|]; [|intros [= <- <-]; reflexivity..].
    destruct (dget k (storage st)) as [d|]; [intros [= <- <-] _; reflexivity|]. destruct (loader v (loader_state st)) as [l r'].
    destruct r' as [d|e|]; [|destruct e; intros [= <- <-] _; reflexivity|intros [= <- <-] _; reflexivity].
    intros [= <- <-] K. exfalso. exact (K d eq_refl).
  Qed.
  (** once loaded, always the same document, whatever else happens, until
      something is added under the same base URI; and the loader is not asked
      about it again *)
  Definition adds_under (k : pystr) (o : op) : Prop := match o with Add v _ => base_key v = k | _ => False end.
  Theorem C52_cached v w st st1 d ops log st2 : made auth v -> made auth w -> base_key w = base_key v -> Forall op_uri ops ->
    load_uri auth loader v st = (st1, Ok d) -> Forall (fun o => ~ adds_under (base_key v) o) ops -> history ops st1 = (log, st2) ->
    load_uri auth loader w st2 = (st2, Ok d).
  Proof.
    intros Hv Hw Ek Hu E Hn H. assert (G1 : dget (base_key v) (storage st1) = Some d).
    { pose proof (perform_storage (Load v) st st1 (Doc (Ok d)) (base_key v) Hv) as K. cbn [perform] in K. rewrite E in K. rewrite (K eq_refl). cbn [puts]. rewrite str_eqb_refl. reflexivity. }
    assert (G2 : dget (base_key v) (storage st2) = Some d).
    { clear E. revert st1 log H G1. induction Hn as [|o ops Ho Hn IH]; intros st1 log H G1; cbn in H; [injection H as <- <-; exact G1|].
      destruct (perform o st1) as [st3 a] eqn:E. destruct (history ops st3) as [log1 st4] eqn:E1. injection H as <- <-. inversion Hu; subst.
      apply (IH ltac:(assumption) st3 log1 E1). rewrite (perform_storage o st1 st3 a) by assumption.
      destruct (puts (base_key v) (o, a)) as [d'|] eqn:P; [|exact G1]. clear - Hv Ho G1 E P H1 auth. f_equal.
      destruct o as [x dx|x|s|x|s|x|s], a as [[]|[]|[]]; try discriminate; cbn [puts] in P.
      - destruct (str_eqb (base_key x) (base_key v)) eqn:Ex; [|discriminate]. apply str_eqb_eq in Ex. exfalso. exact (Ho Ex).
      - destruct (str_eqb (base_key x) (base_key v)) eqn:Ex; [|discriminate]. apply str_eqb_eq in Ex. injection P as ->.
        cbn [perform op_uri] in *. unfold load_uri in E. rewrite (key_of_made x H1), Ex, G1 in E. congruence.
      - destruct (mk_uri auth s) as [x| |] eqn:Em; try discriminate. destruct (str_eqb (base_key x) (base_key v)) eqn:Ex; [|discriminate]. apply str_eqb_eq in Ex. injection P as ->.
        cbn [perform] in E. unfold load_str in E. rewrite Em in E. unfold load_uri in E. rewrite (key_of_made x (made_text auth s x Em)), Ex, G1 in E. congruence. }
    unfold load_uri. rewrite (key_of_made w Hw), Ek, G2. reflexivity.
  Qed.
End Store.
