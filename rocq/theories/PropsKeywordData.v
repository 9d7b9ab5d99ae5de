(** C84: data that looks like a keyword.  Any object below the root with a member
    "id" that is not a text stops the load of a document without identifier. *)
From Verif Require Import PyBase PyBaseFacts PyVal OrderFacts Regex Numbers Uri UriSpec PropsUri UriFacts PropsUriText Pointer Store Validators Heap HeapFacts PropsWrap PropsPlaces Doc DocMono DocFacts PropsQuery DocLoad DocDocument PropsResolve PropsAnchor PropsUriEx PropsRef PropsRetry PropsLoad PropsStd UriNorm RegexFacts PropsPointer PropsIds Ident.
From Verif Require PropsIdent PropsLoader.
Local Notation text := PropsIdent.text.
Local Open Scope nat_scope.
Local Notation length := List.length (only parsing).

(** ** What Python prints for a node that is not a text *)
Definition shape (x : payload) (t : pystr) : Prop :=
  match x with
  | PStr _ => True
  | PNull => t = u "None)"
  | PBool b => t = if b then u "JsonBool(True)" else u "JsonBool(False)"
  | PNum _ => exists w, t = w ++ u ")" /\ Forall (fun c => In c (u "0123456789.E+-")) w
  | PArr _ => exists w, t = u "[" ++ w
  | PObj _ => exists w, t = u "{" ++ w
  | PRef _ => exists w, t = u "JsonReference(" ++ w
  end.
Definition shown (strx : heap -> addr -> pystr) : Prop := forall h a n, hget h a = Some n -> shape (n_val n) (strx h a).

Lemma uint_chars_digits d : Forall (fun c => In c (u "0123456789.E+-")) (uint_chars d).
Proof. induction d; cbn [uint_chars]; [constructor|..]; (constructor; [vm_compute; tauto|exact IHd]). Qed.
Lemma part_of {A} (P : A -> Prop) n l : Forall P l -> Forall P (firstn n l) /\ Forall P (skipn n l).
Proof. rewrite <- (firstn_skipn n l) at 1. apply Forall_app. Qed.
Lemma dec_text_chars d : Forall (fun c => In c (u "0123456789.E+-")) (dec_text d).
Proof.
  unfold dec_text. set (ds := num_digits (dc d)). assert (Fd : Forall (fun c => In c (u "0123456789.E+-")) ds) by apply uint_chars_digits.
  assert (Z0 : forall n, Forall (fun c => In c (u "0123456789.E+-")) (repeat 48%N n)) by (intro n; apply Forall_forall; intros c Hc; apply repeat_spec in Hc as ->; vm_compute; tauto).
  assert (C1 : forall c, In c (u "0123456789.E+-") -> Forall (fun c => In c (u "0123456789.E+-")) [c]) by (intros; constructor; [assumption|constructor]).
  set (left := (de d + Z.of_nat (length ds))%Z). set (dt := (if (de d <=? 0)%Z && (-6 <? left)%Z then left else 1%Z)).
  match goal with |- context [let '(ip, fp) := ?x in _] => assert (K : Forall (fun c => In c (u "0123456789.E+-")) (fst x) /\ Forall (fun c => In c (u "0123456789.E+-")) (snd x)); [|destruct x as [ip fp]] end.
  - destruct (dt <=? 0)%Z; [|destruct (Z.of_nat (length ds) <=? dt)%Z]; cbn [fst snd]; (split; [|]); rewrite ?Forall_app; auto.
    + apply C1. vm_compute. tauto.
    + split; [apply C1; vm_compute; tauto|auto].
    + apply part_of, Fd.
    + split; [apply C1; vm_compute; tauto|apply part_of, Fd].
  - destruct K as [K1 K2]. cbn [fst snd] in *. rewrite !Forall_app. split; [destruct (dc d <? 0)%Z; [apply C1; vm_compute; tauto|constructor]|]. split; [exact K1|]. split; [exact K2|].
    destruct (left =? dt)%Z; [constructor|]. rewrite !Forall_app. split; [apply C1; vm_compute; tauto|]. split; [destruct (left - dt <? 0)%Z; apply C1; vm_compute; tauto|apply uint_chars_digits].
Qed.
(** The model's [repr] prints so *)
Lemma repr_shape printable n h a t m : node_repr printable n h a = Ok t -> hget h a = Some m -> shape (n_val m) t.
Proof.
  intros E Hm. destruct n as [|n]; [discriminate|]. cbn [node_repr] in E. rewrite Hm in E. destruct (n_val m) as [|b|d|s|l|its|r]; cbn [shape].
  - injection E as <-. reflexivity.
  - injection E as <-. reflexivity.
  - injection E as <-. exists (dec_text d). split; [reflexivity|apply dec_text_chars].
  - exact I.
  - destruct (map_res _ l) as [ts|e|]; cbn [bind] in E; try discriminate. injection E as <-. eexists. reflexivity.
  - destruct (map_res _ its) as [ts|e|]; cbn [bind] in E; try discriminate. injection E as <-. eexists. reflexivity.
  - injection E as <-. eexists. reflexivity.
Qed.

(** ** Such a text is a URI without scheme and authority *)
Local Open Scope N_scope.
Definition no_scheme (t : pystr) : Prop := exists x c y, t = x ++ c :: y /\ ~ In 58 x /\ c <> 58 /\ scheme_char c = false.
Lemma relative_text auth t : auth [] = Some (Auth [] [] []) -> no_scheme t -> (forall y, t <> 47 :: y) ->
  exists v, mk_uri auth t = Ok v /\ u_scheme v = [] /\ u_auth v = Auth [] [] [].
Proof.
  intros Ha (x & c & y & E & Nx & Nc & Sc) Nh. destruct (C66_parts auth t) as (sc & au & p & q & f & j & Et & Pr & _ & _ & Ok').
  assert (sc = None) as ->.
  { destruct sc as [w|]; [exfalso|reflexivity]. destruct Pr as [P1 _]. specialize (P1 w eq_refl). apply scheme_text_iff, reads_scheme in P1 as (c0 & w0 & -> & H0 & Hw).
    assert (Fw : Forall (fun z => scheme_char z = true) (c0 :: w0)). { constructor; [unfold scheme_char; rewrite H0; reflexivity|exact Hw]. }
    unfold compose in Et. rewrite E in Et. rewrite <- !app_assoc in Et. change (u ":") with [58] in Et. cbn [app] in Et.
    change (c0 :: w0 ++ ?r) with ((c0 :: w0) ++ r) in Et. remember (c0 :: w0) as w. clear -Et Fw Nx Nc Sc.
    apply app_split in Et as [(l & -> & E2)|(l & -> & E2)].
    - destruct l as [|z l]; [injection E2 as E3 _; congruence|]. injection E2 as E3 _. apply Nx, in_or_app. right. left. symmetry. exact E3.
    - destruct l as [|z l]; [injection E2 as E3 _; congruence|]. injection E2 as E3 _. apply Forall_app in Fw as [_ Fw]. inversion Fw; congruence. }
  assert (au = None) as ->. { destruct au as [w|]; [exfalso|reflexivity]. unfold compose in Et. rewrite Et in Nh. eapply Nh. reflexivity. }
  destruct (Ok' _ Ha) as (v & Hv & S & A & _). exists v. auto.
Qed.
Lemma shape_relative auth x t : auth [] = Some (Auth [] [] []) -> (forall s, x <> PStr s) -> shape x t -> exists v, mk_uri auth t = Ok v /\ is_absolute auth v = Ok false.
Proof.
  intros Ha Nx Sh. assert (K : no_scheme t /\ forall y, t <> 47 :: y).
  { assert (Q : forall a c y, t = a ++ c :: y -> Forall (fun z => z <> 58) a -> scheme_char c = false -> c <> 58 -> no_scheme t).
    { intros a c y -> F S N. exists a, c, y. split; [reflexivity|]. split; [|auto]. intro C. rewrite Forall_forall in F. exact (F _ C eq_refl). }
    destruct x as [|b|d|s|l|its|r]; cbn [shape] in Sh.
    - subst t. split; [|discriminate]. apply (Q (u "None") 41 []); [reflexivity|repeat constructor; discriminate|reflexivity|discriminate].
    - subst t. split; [|destruct b; discriminate]. destruct b; [apply (Q (u "JsonBool") 40 (u "True)"))|apply (Q (u "JsonBool") 40 (u "False)"))]; try reflexivity; try discriminate; repeat constructor; discriminate.
    - destruct Sh as (w & -> & F). split.
      + apply (Q w 41 []); [reflexivity| |reflexivity|discriminate]. eapply Forall_impl; [|exact F]. intros c Hc ->. revert Hc. vm_compute. intuition discriminate.
      + intros y E. destruct w as [|c w]; [discriminate|]. injection E as -> _. inversion F as [|? ? Hc _]; subst. revert Hc. vm_compute. intuition discriminate.
    - destruct (Nx s eq_refl).
    - destruct Sh as (w & ->). split; [|discriminate]. apply (Q [] 91 w); [reflexivity|constructor|reflexivity|discriminate].
    - destruct Sh as (w & ->). split; [|discriminate]. apply (Q [] 123 w); [reflexivity|constructor|reflexivity|discriminate].
    - destruct Sh as (w & ->). split; [|discriminate]. apply (Q (u "JsonReference") 40 w); [reflexivity|repeat constructor; discriminate|reflexivity|discriminate]. }
  destruct K as [K1 K2]. destruct (relative_text auth t Ha K1 K2) as (v & Hv & S & A). exists v. split; [exact Hv|]. eapply C53_relative; eassumption.
Qed.
Local Open Scope nat_scope.


(** ** A text that starts with a brace or a bracket, resolved against an identifier *)
Local Open Scope N_scope.
(** no character a pattern can read *)
Fixpoint mentions (c : N) (r : regex) : bool :=
  match r with
  | Eps | Eol | Look _ | NotLook _ => false
  | Cls p => p c
  | Seq a b | Alt a b => mentions c a || mentions c b
  | Star a | Grp _ a => mentions c a
  end.
Lemma parse_mentions c r w cs cs' : parse r w cs cs' -> In c w -> mentions c r = true.
Proof.
  induction 1; cbn [mentions]; intro Hin; try contradiction; try (apply in_app_or in Hin as [Hin|Hin]); rewrite ?orb_true_iff; auto.
  destruct Hin as [->|[]]. assumption.
Qed.
Lemma not_read c r w : mentions c r = false -> reads r w -> ~ In c w.
Proof. intros E R H. rewrite (parse_mentions _ _ _ _ _ R H) in E. discriminate. Qed.
Lemma brace_refused c S A z : c = 123 \/ c = 91 -> scheme_text S -> In c z -> re_match absolute_regex (S ++ u "://" ++ A ++ u "/" ++ z) = None.
Proof.
  intros Hc HS Hz. destruct (re_match absolute_regex (S ++ u "://" ++ A ++ u "/" ++ z)) as [cs|] eqn:Em; [exfalso|reflexivity].
  destruct (proj1 (absolute_reads _) (ex_intro _ cs Em)) as (w & t & E & Ht & R). unfold absolute_body in R. cbn [seqs fold_right] in R.
  assert (Nm : forall w r, reads r w -> mentions 123 r = false -> mentions 91 r = false -> ~ In c w) by (intros w0 r Rr M1 M2; destruct Hc as [->| ->]; eapply not_read; eassumption).
  apply reads_seq in R as (w1 & w2 & -> & R1 & R); [|reflexivity]. apply reads_seq in R as (w3 & w4 & -> & R2 & R); [|reflexivity].
  apply reads_cls in R2 as (c1 & -> & Hc1). apply N.eqb_eq in Hc1 as ->. apply scheme_text_iff in R1.
  assert (E1 : 47 :: 47 :: A ++ 47 :: z = w4 ++ t).
  { change (u "://" ++ A ++ u "/" ++ z) with (58 :: 47 :: 47 :: A ++ 47 :: z) in E. rewrite <- !app_assoc in E. cbn [app] in E. pose proof (cut_scheme_some _ (47 :: 47 :: A ++ 47 :: z) HS) as C1. pose proof (cut_scheme_some _ (w4 ++ t) R1) as C2.
    rewrite E in C1. rewrite C1 in C2. injection C2 as _ ->. reflexivity. }
  clear E R1. apply reads_seq in R as (w5 & w6 & -> & R1' & R); [|reflexivity]. apply reads_seq in R as (w7 & w8 & -> & R2 & R3); [|reflexivity].
  apply reads_eps in R3 as ->. rewrite app_nil_r in *.
  assert (N7 : ~ In c w7) by (eapply Nm; [exact R2|reflexivity|reflexivity]).
  assert (Nt : ~ In c t) by (destruct Ht as [->| ->]; [intros []|intros [C|[]]; destruct Hc; subst; discriminate]).
  assert (Q7 : w7 = [] \/ exists r, w7 = 63 :: r).
  { apply reads_opt in R2 as [R2|R2]; [right|left; exact R2]. apply reads_seq in R2 as (x & y & -> & Hx & _); [|reflexivity]. apply reads_cls in Hx as (c1 & -> & Hc1). apply N.eqb_eq in Hc1 as ->. cbn. eauto. }
  apply reads_alt in R1' as [R1'|R1'].
  - apply reads_seq in R1' as (x & y & -> & Hx & R1'); [|reflexivity]. apply reads_cls in Hx as (c1 & -> & Hc1). apply N.eqb_eq in Hc1 as ->.
    apply reads_seq in R1' as (x & y' & -> & Hx & R1'); [|reflexivity]. apply reads_cls in Hx as (c1 & -> & Hc1). apply N.eqb_eq in Hc1 as ->.
    apply reads_seq in R1' as (a & p & -> & Ha & Hp); [|reflexivity]. apply reads_star_cls in Ha. apply lacks_auth in Ha.
    assert (Np : ~ In c p) by (eapply Nm; [exact Hp|reflexivity|reflexivity]). clear Hp.
    cbn [app] in E1. injection E1 as E1. rewrite <- !app_assoc in E1.
    assert (K : In c (p ++ w7 ++ t)).
    { apply app_split in E1 as [(l & -> & E2)|(l & -> & E2)].
      - rewrite E2. apply in_or_app. right. right. exact Hz.
      - destruct l as [|x l]; [cbn [app] in E2; rewrite <- E2; right; exact Hz|]. injection E2 as <- _. exfalso. apply (Ha 47); [apply in_or_app; right; left; reflexivity|left; reflexivity]. }
    apply in_app_or in K as [K|K]; [exact (Np K)|]. apply in_app_or in K as [K|K]; [exact (N7 K)|exact (Nt K)].
  - apply reads_alt in R1' as [R1'|R1'].
    + apply reads_seq in R1' as (x & y & -> & Hx & R1'); [|reflexivity]. apply reads_cls in Hx as (c1 & -> & Hc1). apply N.eqb_eq in Hc1 as ->.
      cbn [app] in E1. injection E1 as E1. apply reads_opt in R1' as [R1'| ->].
      * apply (reads_rootless_head (fun _ => None)) in R1' as (c1 & r & -> & Hc1 & _). cbn [app] in E1. injection E1 as <- _. congruence.
      * cbn [app] in E1. destruct Q7 as [->|[r ->]]; [|discriminate]. destruct Ht as [->| ->]; discriminate.
    + apply (reads_rootless_head (fun _ => None)) in R1' as (c1 & r & -> & Hc1 & _). cbn [app] in E1. injection E1 as <- _. congruence.
Qed.

(** ** The path of such a text survives normalization *)
Local Notation slash := Uri.slash (only parsing).
Lemma dots_loop_app l1 : forall l2 out, dots_loop (l1 ++ l2) out = dots_loop l2 (dots_loop l1 out).
Proof.
  induction l1 as [|w l1 IH]; intros l2 out; [reflexivity|]. cbn [app dots_loop]. destruct (str_eqb w dot); [apply IH|]. destruct (negb (str_eqb w dotdot)); [apply IH|]. destruct out; apply IH.
Qed.
Lemma dots_loop_keeps w l : ~ In dotdot l -> forall out, In w out -> In w (dots_loop l out).
Proof.
  induction l as [|x l IH]; intros N out H; [exact H|]. assert (Nl : ~ In dotdot l) by (intro; apply N; right; assumption). cbn [dots_loop].
  destruct (str_eqb x dot); [apply IH; assumption|]. destruct (str_eqb_spec x dotdot) as [->|]; [destruct N; left; reflexivity|]. cbn [negb]. apply IH; [assumption|right; exact H].
Qed.
Lemma split_head c s w : In w (split c s) -> (exists r, split c s = w :: r) \/ exists a b, s = a ++ c :: w ++ b.
Proof.
  intro H. pose proof (split_join c s) as J. destruct (split_cons c s) as (x & l & E). rewrite E in *. destruct H as [->|H]; [left; eauto|right].
  rewrite join_map in J. apply in_split in H as (l1 & l2 & ->). rewrite map_app, concat_app in J. cbn [map List.concat] in J.
  exists (x ++ List.concat (map (fun y => c :: y) l1)), (List.concat (map (fun y => c :: y) l2)). rewrite <- J, <- app_assoc. reflexivity.
Qed.
Lemma brace_kept c D p : c = 123 \/ c = 91 -> (D = [] \/ exists r, D = 47 :: r) -> (forall a b, c :: p <> a ++ u "/.." ++ b) ->
  exists z, normalize_path (D ++ u "/" ++ c :: p) = u "/" ++ z /\ In c z.
Proof.
  intros Hc HD Np. set (P := upper_escapes (c :: p)). assert (EP : exists p', P = c :: p') by (exists (upper_escapes p); apply upper_escapes_cons; destruct Hc; subst; discriminate).
  assert (ES : upper_escapes (D ++ u "/" ++ c :: p) = upper_escapes D ++ slash :: P) by (apply (upper_escapes_app slash); [reflexivity|discriminate]).
  assert (EN : normalize_path (D ++ u "/" ++ c :: p) = remove_dot_segments (upper_escapes D ++ slash :: P)).
  { unfold normalize_path. rewrite ES. destruct (D ++ u "/" ++ c :: p) eqn:E; [destruct D; discriminate|reflexivity]. }
  assert (HS : startswith (u "/") (upper_escapes D ++ slash :: P) = true).
  { destruct HD as [->|[r ->]]; [reflexivity|]. rewrite (upper_escapes_cons 47) by discriminate. reflexivity. }
  assert (Nd : ~ In dotdot (split slash P)).
  { intro H. unfold P in H. assert (E : split slash (upper_escapes (c :: p)) = map upper_escapes (split slash (c :: p))).
    { rewrite upper_split at 1. destruct (split_parts slash (c :: p)) as (S1 & S2 & _). destruct (map_fine _ S1 S2) as [F1 F2]. apply (split_of_join slash); assumption. }
    rewrite E in H. apply in_map_iff in H as (x & Ex & Hx). assert (x = dotdot) as ->.
    { apply str_eqb_eq. rewrite <- (proj2 (upper_escapes_dot x)), Ex. reflexivity. }
    destruct (split_head _ _ _ Hx) as [[r Er]|(a & b & Eb)].
    - pose proof (split_join slash (c :: p)) as J. rewrite Er, join_map in J. cbn [dotdot app] in J. injection J as <- _. destruct Hc; discriminate.
    - exact (Np a b Eb). }
  destruct EP as [p' Ep]. assert (Hw : exists w l, split slash P = (c :: w) :: l).
  { rewrite Ep. cbn [split]. assert (Ec : N.eqb c slash = false) by (destruct Hc as [->| ->]; reflexivity). rewrite Ec. destruct (split_cons slash p') as (w & l & ->). eauto. }
  destruct Hw as (w & l & Ew).
  assert (Hin : In (c :: w) (rev (dots_loop (split slash (upper_escapes D ++ slash :: P)) []))).
  { apply -> in_rev. rewrite PropsLoader.split_snoc_slash, dots_loop_app. rewrite Ew. cbn [dots_loop].
    assert (E1 : str_eqb (c :: w) dot = false) by (apply str_eqb_neq; intros [= -> _]; destruct Hc; discriminate). assert (E2 : str_eqb (c :: w) dotdot = false) by (apply str_eqb_neq; intros [= -> _]; destruct Hc; discriminate).
    rewrite E1, E2. cbn [negb]. apply dots_loop_keeps; [intro C; apply Nd; rewrite Ew; right; exact C|left; reflexivity]. }
  rewrite EN. unfold remove_dot_segments. rewrite HS. cbn [andb]. set (out := rev (dots_loop (split slash (upper_escapes D ++ slash :: P)) [])) in *.
  assert (K : exists rest, (if match out with [] :: _ => false | _ => true end then [] :: out else out) = [] :: rest /\ In (c :: w) rest).
  { destruct out as [|[|y o] out']; [destruct Hin| |]; [exists out'; split; [reflexivity|]; destruct Hin as [C|Hin]; [discriminate|exact Hin]|eexists; split; [reflexivity|exact Hin]]. }
  destruct K as (rest & -> & Hr). set (en := endswith (u "/.") _ || endswith (u "/..") _).
  assert (K : exists rest', (if en then ([] :: rest) ++ [[]] else [] :: rest) = [] :: rest' /\ In (c :: w) rest') by (destruct en; [exists (rest ++ [[]]); split; [reflexivity|apply in_or_app; left; exact Hr]|exists rest; auto]).
  destruct K as (rest' & -> & Hr'). destruct rest' as [|x rest']; [destruct Hr'|]. exists (join (u "/") (x :: rest')). split; [reflexivity|].
  change (u "/") with [slash]. rewrite join_map. destruct Hr' as [->|Hr']; [left; reflexivity|]. apply in_or_app. right. apply in_concat. exists (slash :: c :: w). split; [apply in_map_iff; exists (c :: w); auto|right; left; reflexivity].
Qed.
Lemma dir_rooted r : dir_of (47 :: r) = [] \/ exists r', dir_of (47 :: r) = 47 :: r'.
Proof. unfold dir_of. cbn [upto_last]. destruct (upto_last slash r) as [w|]; [right; eauto|left; reflexivity]. Qed.
(** An identifier with scheme and rooted path does not make it absolute. *)
Lemma brace_resolved auth rt b t v c t' : mk_uri auth rt = Ok b -> u_scheme b <> [] -> (exists r, u_path b = 47 :: r) ->
  auth [] = Some (Auth [] [] []) -> t = c :: t' -> c = 123 \/ c = 91 -> (forall x y, t <> x ++ u "/.." ++ y) -> mk_uri auth t = Ok v -> is_absolute auth v = Ok false ->
  exists v', resolve auth b v = Ok v' /\ is_absolute auth v' = Ok false.
Proof.
  intros Hb Hs (r & Hr) Ha -> Hc Nd Hv Ab.
  assert (Pv : exists p rest, u_path v = c :: p /\ c :: t' = (c :: p) ++ rest).
  { destruct (C66_parts auth (c :: t')) as (sc & au & p & q & f & j & Et & Pr & J & _ & Ok').
    assert (sc = None) as ->.
    { destruct sc as [w|]; [exfalso|reflexivity]. destruct Pr as [P1 _]. destruct (P1 w eq_refl) as (c0 & w0 & -> & L & _). unfold compose in Et. cbn [app] in Et. injection Et as <- _. unfold letter in L. destruct Hc; subst; lia. }
    assert (au = None) as ->. { destruct au as [w|]; [exfalso|reflexivity]. unfold compose in Et. cbn in Et. injection Et as -> _. destruct Hc; discriminate. }
    destruct (Ok' _ Ha) as (v' & Hv' & _ & _ & Ep & _). rewrite Hv in Hv'. injection Hv' as <-. specialize (Ep eq_refl). unfold compose in Et. cbn [app] in Et. rewrite <- !app_assoc in Et.
    destruct p as [|c0 p]; [exfalso|].
    - cbn [app] in Et. destruct q as [q|]; [injection Et as -> _; destruct Hc; discriminate|]. destruct f as [f|]; [injection Et as -> _; destruct Hc; discriminate|].
      cbn [app] in Et. destruct J as [->|[C _]]; [discriminate|congruence].
    - injection Et as <- Et. exists p. eexists. split; [exact Ep|]. cbn [app]. f_equal. exact Et. }
  destruct Pv as (p & rest & Ev & Et). unfold resolve. rewrite Ab. cbn [bind]. rewrite Ev.
  assert (Sw : startswith (u "/") (c :: p) = false) by (destruct Hc as [->| ->]; reflexivity). rewrite Sw. unfold copy_with. cbn [bind]. eexists. split; [reflexivity|].
  destruct (text_shape auth rt b Hb) as (S1 & S2 & _). destruct S1 as [C|S1]; [congruence|].
  destruct (brace_kept c (dir_of (u_path b)) p Hc) as (z & Ez & Hz).
  - rewrite Hr. destruct (dir_rooted r) as [->|[r' ->]]; [left; reflexivity|right; eauto].
  - intros x y E. apply (Nd x (y ++ rest)). rewrite Et, E, <- !app_assoc. reflexivity.
  - unfold is_absolute, copy_with. cbn [bind u_scheme u_auth u_path u_query u_frag]. destruct (u_scheme b) as [|c0 sc] eqn:Es; [congruence|]. rewrite normalize_path_idem, Ez.
    unfold uri_text. cbn [u_scheme u_auth u_path u_query u_frag normalize_query upper_escapes]. rewrite !app_nil_r. 
    rewrite <- app_assoc. rewrite (brace_refused c (c0 :: sc) (if auth_bool (u_auth b) then auth_text (u_auth b) else []) z Hc S1 Hz). reflexivity.
Qed.
Local Open Scope nat_scope.

(** ** The documents *)
Section Spec.
  Variable auth : pystr -> option authority.
  (** The first object that is not fit to be loaded, members before the object they
      are in, satisfies [bad], at its path. *)
  Inductive meets (root : option pystr) (bad : list pystr -> list (pystr * pv) -> Prop) : list pystr -> pv -> Prop :=
  | mt_own pth d : Forall (fun kx => fit auth root (pth ++ [fst kx]) (snd kx)) d -> bad pth d -> meets root bad pth (VDict d)
  | mt_below pth d1 k x d2 : Forall (fun kx => fit auth root (pth ++ [fst kx]) (snd kx)) d1 -> meets root bad (pth ++ [k]) x -> meets root bad pth (VDict (d1 ++ (k, x) :: d2)).
End Spec.
(** Below the root and outside enum, an object with a member "$id", or else "id", in
    [sort], and without "$ref" and "$anchor". *)
Definition names_by (sort : pv -> Prop) (pth : list pystr) (d : list (pystr * pv)) : Prop :=
  pth <> [] /\ ~ In (u "enum") pth /\ dget (u "$ref") d = None /\ dget (u "$anchor") d = None /\ exists x, id_member d = Some x /\ sort x.
Definition no_text (x : pv) : Prop := forall t, x <> VStr t.
(** an object or an array without keywords of the core, in which "/.." does not occur *)
Definition ordinary (printable : N -> bool) (x : pv) : Prop :=
  ((exists e, x = VDict e) \/ exists l, x = VList l) /\ free x /\ forall a b, text printable x <> a ++ u "/.." ++ b.

Section Data.
  Variables (auth : pystr -> option authority) (dig : N -> option Z) (strx : heap -> addr -> pystr) (fetch : uri -> res pv).
  Notation Runs := (Runs auth dig strx fetch).
  Notation ev := (ev auth dig strx fetch).
  Hypothesis no_authority : auth [] = Some (Auth [] [] []).
  Variable s : nat.

  Lemma loaded_not_text h a x : loaded auth h s a x -> (forall t, x <> VStr t) -> exists n, hget h a = Some n /\ forall t, n_val n <> PStr t.
  Proof.
    intros L Nt. destruct L as [a v Nd H|a d its _ (n & Hn & En) _|a d b its t v p _ _ (n & Hn & En) _ _].
    - inversion H as [? V|? ? V|? ? V|? ? ? V|? ? ? V|? ? ? V|? ? els V Fe|? ? its V Fe]; subst; try (destruct (Nt _ eq_refl)); destruct V as (n & Hn & En); exists n; (split; [exact Hn|]); rewrite En; discriminate.
    - exists n. split; [exact Hn|]. rewrite En. discriminate.
    - exists n. split; [exact Hn|]. rewrite En. discriminate.
  Qed.
  (** the text of an id that is no text *)
  Lemma other_text rec w a its c n : val (w_heap w) a (PObj its) -> id_member its = Some c -> hget (w_heap w) c = Some n -> (forall t, n_val n <> PStr t) ->
    id_text strx rec a w = (w, Ok (strx (w_heap w) c)).
  Proof.
    intros Va Ic Hn Nt. unfold id_text. unfold mbind at 1. rewrite (has_obj rec w a its _ Va). cbn [dict_has]. rewrite dmem_get. unfold id_member in Ic.
    assert (M : forall k, dget k its = Some c -> member_str strx rec a k w = (w, Ok (strx (w_heap w) c))).
    { intros k G. unfold member_str. unfold mbind. rewrite (get_obj rec w a its _ Va). cbn [dict_get]. rewrite G. unfold node_str. rewrite Hn. destruct n as [x p k']. cbn [n_val] in Nt. destruct x; try reflexivity. destruct (Nt _ eq_refl). }
    destruct (dget (u "$id") its) as [c'|] eqn:E; [injection Ic as ->|]; apply M; assumption.
  Qed.
  (** what the load comes to at such an object, and what stops it there *)
  Record here (w : world) (root : option pystr) (a : addr) (its : list (pystr * addr)) (pth : list pystr) (r : addr) : Prop := Here {
    h_node : exists par key, hget (w_heap w) a = Some (Node (PObj its) (Some par) key);
    h_schema : exists y, nth_error (w_schemas w) s = Some y;
    h_path : node_path (w_heap w) a = Ok pth;
    h_root : node_root (w_heap w) a = Ok r;
    h_id : root_id (w_heap w) r root;
    h_bare : bare (w_heap w) r root }.
  Definition stops (root : option pystr) (bad : list pystr -> list (pystr * pv) -> Prop) : Prop := forall w a its d pth r, here w root a its pth r ->
    Forall2 (fun ka kx => fst ka = fst kx /\ loaded auth (w_heap w) s (snd ka) (snd kx)) its d -> bad pth d -> exists w', ev (fun rec => apply_kws auth strx fetch rec core s a) w w' (Raise EValue).
  Lemma process_meets root bad : (forall d, ~ bad [] d) -> stops root bad -> forall v pth, meets auth root bad pth v -> forall w base par key r, placed (w_heap w) base (wrap base par key v) ->
    env s w base pth root r -> start s w base par pth root -> exists w', Runs (CProcess s base) w w' (Raise EValue).
  Proof.
    intros Nb Stop. induction 1 as [pth d Fd Bd|pth d1 k x d2 F1 Sp IH]; intros w base par key r P Ev St.
    - rewrite wrap_dict in *. apply placed_cons in P as [P1 P2]. set (its := fst (wrap_items base (S base) d)) in *.
      destruct (fit_plans auth root pth d base (S base) Fd) as [ls Pls].
      destruct (members_done auth dig strx fetch s root base pth r d (S base) ls w ltac:(lia) P2 Ev Pls) as (w1 & its' & R1 & E1 & L1). fold its in R1.
      pose proof (e_len _ _ _ _ _ _ E1) as Len1.
      assert (Lb : base < length (w_heap w)) by (apply hget_lt in P1; exact P1).
      assert (Hb1 : hget (w_heap w1) base = Some (Node (PObj its) par key)).
      { rewrite (e_frame _ _ _ _ _ _ E1); [exact P1|exact Lb|lia]. }
      set (w2 := Doc.World (hset (w_heap w1) base (PObj its')) (w_schemas w1) (w_store w1)).
      assert (Hb2 : hget (w_heap w2) base = Some (Node (PObj its') par key)) by (cbn [w2 w_heap]; rewrite hget_hset, Nat.eqb_refl, Hb1; reflexivity).
      assert (Ag : forall y, y <> base -> hget (w_heap w2) y = hget (w_heap w1) y).
      { intros y Ny. cbn [w2 w_heap]. rewrite hget_hset. destruct (Nat.eqb_spec base y); [congruence|reflexivity]. }
      assert (F2 : Forall2 (fun ka kx => fst ka = fst kx /\ loaded auth (w_heap w2) s (snd ka) (snd kx)) its' d).
      { apply (L1 (w_heap w2)). intros y Hy. apply Ag. lia. }
      pose proof (env_effect s _ _ _ _ _ _ _ _ _ Ev E1 ltac:(lia)) as Ev1. destruct Ev1 as [(x1 & Hx1 & Vx1 & Rx1) K1 Kr1 I1 B1 Le1].
      assert (SL : same_links (w_heap w1) (w_heap w2)) by (cbn [w2 w_heap]; apply same_links_hset).
      assert (Len2 : length (w_heap w2) = length (w_heap w1)) by (cbn [w2 w_heap]; apply hset_length).
      destruct St as (_ & Kp & r' & Kr & Hrb & Hrn & _). pose proof (v_root _ _ _ _ _ _ Ev) as Kr'. assert (r' = r) as -> by congruence.
      assert (Pn : exists q, par = Some q). { destruct par as [q|]; [eauto|]. exfalso. cbn [keys_up] in Kp. rewrite P1 in Kp. cbn [n_parent] in Kp. injection Kp as <-. exact (Nb d Bd). }
      destruct Pn as [q ->]. assert (Nr : r <> base) by (specialize (Hrn ltac:(discriminate)); lia).
      assert (H2 : here w2 root base its' pth r).
      { assert (Fr : forall z, val (w_heap w1) r z -> val (w_heap w2) r z) by (intros z (m & Hm & Em); exists m; split; [rewrite Ag by exact Nr; exact Hm|exact Em]). constructor.
        - eauto.
        - eauto.
        - unfold node_path. apply (keys_up_more _ (S base)); [eapply keys_up_same; eassumption|discriminate|lia].
        - unfold node_root. apply (root_up_more _ (S base)); [eapply root_up_same; eassumption|discriminate|lia].
        - destruct I1 as (rits & Vr & M). exists rits. split; [auto|]. destruct root as [rt|]; [|exact I]. destruct M as (c & Hc & Vc). exists c. split; [exact Hc|]. eapply str_hset; [|exact Vc]. eexists; split; [exact Hb1|reflexivity].
        - intro R. destruct (B1 R) as (ri & Vi & Ni). exists ri. auto. }
      destruct (Stop w2 base its' d pth r H2 F2 Bd) as (w3 & R3).
      exists w3. apply ev_step. cbn [Doc.step]. unfold process. assert (V0 : val (w_heap w) base (PObj its)) by (eexists; split; [exact P1|reflexivity]).
      eapply ev_bind; [apply (runs_type _ _ _ _ w base _ V0 eq_refl)|]. cbn [kind_of].
      eapply ev_bind; [apply ev_pure; intro rec; apply (items_obj rec w base its V0)|].
      eapply ev_bind; [exact R1|]. eapply ev_known; [apply node_at_ok, Hb1|]. cbn [n_val].
      eapply ev_known; [reflexivity|]. fold w2. eapply ev_known; [apply schema_at_ok; exact Hx1|]. rewrite Vx1. exact R3.
    - rewrite wrap_dict in *. apply placed_cons in P as [P1 P2]. destruct (fit_plans auth root pth d1 base (S base) F1) as [ls Pls].
      destruct (members_refused auth dig strx fetch s root base pth r k x d2 EValue) with (d1 := d1) (b := S base) (ls := ls) (w := w) as (w' & R).
      + intros w0 b par0 P0 Ev0 St0 Np. eapply IH; eassumption.
      + lia.
      + exact P2.
      + exact Ev.
      + exact Pls.
      + exists w'. apply ev_step. cbn [Doc.step]. unfold process. assert (V0 : val (w_heap w) base (PObj (fst (wrap_items base (S base) (d1 ++ (k, x) :: d2))))) by (eexists; split; [exact P1|reflexivity]).
        eapply ev_bind; [apply (runs_type _ _ _ _ w base _ V0 eq_refl)|]. cbn [kind_of].
        eapply ev_bind; [apply ev_pure; intro rec; apply (items_obj rec w base _ V0)|]. apply ev_bind_raise. exact R.
  Qed.

  (** the members of such an object, and its identifier *)
  Lemma names_reach w root a its d pth r sort : here w root a its pth r -> Forall2 (fun ka kx => fst ka = fst kx /\ loaded auth (w_heap w) s (snd ka) (snd kx)) its d -> names_by sort pth d ->
    exists x c par key, sort x /\ loaded auth (w_heap w) s c x /\ id_member its = Some c /\ hget (w_heap w) a = Some (Node (PObj its) (Some par) key) /\ str_mem (u "enum") pth = false /\
      forall rec, apply_kws auth strx fetch rec core s a w = mbind (apply_id auth strx rec s a) (fun a' => ret a') w.
  Proof.
    intros [(par & key & Ha) _ _ _ _ _] F (Np & Ne & Gr & Ga & x & Ix & Sx).
    assert (V : val (w_heap w) a (PObj its)) by (eexists; split; [exact Ha|reflexivity]).
    assert (G : forall k, match dget k d with Some z => exists c, dget k its = Some c /\ loaded auth (w_heap w) s c z | None => dget k its = None end) by (intro k; apply (dget_forall2 _ _ _ k F)).
    pose proof (G (u "$ref")) as G1. rewrite Gr in G1. pose proof (G (u "$anchor")) as G2. rewrite Ga in G2.
    assert (exists c, id_member its = Some c /\ loaded auth (w_heap w) s c x) as (c & Ic & Lc).
    { unfold id_member in *. pose proof (G (u "$id")) as G3. destruct (dget (u "$id") d) as [z|]; [injection Ix as ->; destruct G3 as (c & -> & Lc); eauto|]. rewrite G3. pose proof (G (u "id")) as G4. rewrite Ix in G4. exact G4. }
    exists x, c, par, key. split; [exact Sx|]. split; [exact Lc|]. split; [exact Ic|]. split; [exact Ha|]. split; [destruct (str_mem (u "enum") pth) eqn:E; [apply str_mem_In in E; contradiction|reflexivity]|].
    assert (Kd : keyed its = true) by (unfold keyed; rewrite !dmem_get; unfold id_member in Ic; destruct (dget (u "$id") its); [reflexivity|rewrite Ic; reflexivity]).
    intro rec. unfold core. cbn [apply_kws]. unfold mbind at 1. rewrite (any_has_obj rec w a its _ V). cbn [kw_names existsb]. rewrite dmem_get, G1. cbn [orb]. unfold mbind at 1. cbn [ret].
    unfold mbind at 1. rewrite (any_has_obj rec w a its _ V). cbn [kw_names existsb]. rewrite dmem_get, G2. cbn [orb]. unfold mbind at 1. cbn [ret].
    unfold mbind at 1. rewrite (any_has_obj rec w a its _ V).
    change (mbind (if keyed its then apply_id auth strx rec s a else ret a) (fun a' => ret a') w = mbind (apply_id auth strx rec s a) (fun a' => ret a') w). rewrite Kd. reflexivity.
  Qed.
  Lemma stops_alone : shown strx -> stops None (names_by no_text).
  Proof.
    intros prints w a its d pth r H F B. destruct (names_reach w None a its d pth r no_text H F B) as (x & c & par & key & Nx & Lc & Ic & Ha & Nin & K).
    assert (V : val (w_heap w) a (PObj its)) by (eexists; split; [exact Ha|reflexivity]).
    destruct H as [_ _ Hp Hr _ Br]. destruct (Br eq_refl) as (rits & Vr & Nr). destruct (keyed_none _ Nr) as [N1 N2].
    destruct (loaded_not_text _ _ _ Lc Nx) as (n & Hn & Nt). destruct (shape_relative auth (n_val n) (strx (w_heap w) c) no_authority Nt (prints _ _ _ Hn)) as (v & Hv & Ab).
    exists w. apply ev_pure. intro rec. rewrite K. unfold mbind at 1. unfold apply_id. unfold mbind at 1. rewrite (other_text rec w a its c n V Ic Hn Nt). unfold mbind at 1, lift. rewrite Hv.
    destruct (u_frag v) as [|f0 f]; [|reflexivity]. unfold mbind at 1. rewrite (node_at_ok _ _ _ Ha). cbn [n_parent n_val].
    unfold mbind at 1, get_world. unfold mbind at 1. rewrite Hp, Nin. unfold mbind at 1. rewrite Ab. unfold mbind at 1. unfold mbind at 1. rewrite Hr.
    unfold mbind at 1. rewrite (has_obj rec w r rits _ Vr). cbn [dict_has]. rewrite N1. unfold mbind at 1. rewrite (has_obj rec w r rits _ Vr). cbn [dict_has]. rewrite N2. reflexivity.
  Qed.
  Lemma stops_identified printable rt b : (forall h c x, holds h c x -> no_text x -> strx h c = text printable x) ->
    mk_uri auth rt = Ok b -> u_scheme b <> [] -> (exists p, u_path b = 47%N :: p) -> stops (Some rt) (names_by (ordinary printable)).
  Proof.
    intros prints Hb Hs Hp0 w a its d pth r H F B. destruct (names_reach w _ a its d pth r _ H F B) as (x & c & par & key & (Kx & Fx & Nd) & Lc & Ic & Ha & Nin & K).
    assert (V : val (w_heap w) a (PObj its)) by (eexists; split; [exact Ha|reflexivity]).
    destruct H as [_ [y Hy] Hp Hr (rits & Vr & (cr & Hcr & Vcr)) _].
    assert (Nx : no_text x) by (intros t ->; destruct Kx as [[e C]|[l C]]; discriminate).
    destruct (loaded_not_text _ _ _ Lc Nx) as (n & Hn & Nt). pose proof (prints _ _ _ (loaded_free auth _ _ _ _ Fx Lc) Nx) as Et.
    assert (Hd : exists k t', text printable x = k :: t' /\ (k = 123 \/ k = 91)%N /\ shape (match x with VDict _ => PObj [] | _ => PArr [] end) (k :: t')).
    { destruct Kx as [[e ->]|[l ->]]; cbn [PropsIdent.text shape]; do 2 eexists; (split; [reflexivity|]); (split; [auto|]); eexists; reflexivity. }
    destruct Hd as (k & t' & Ek & Hk & Sh).
    assert (Np : forall t, match x with VDict _ => PObj [] | _ => PArr [] end <> PStr t) by (intro; destruct x; discriminate).
    destruct (shape_relative auth _ _ no_authority Np Sh) as (v & Hv & Ab).
    rewrite <- Ek in Hv. destruct (brace_resolved auth rt b (text printable x) v k t' Hb Hs Hp0 no_authority Ek Hk Nd Hv Ab) as (v' & Rs & Ab'). rewrite <- Et in Hv.
    assert (Q : forall rec, id_text strx rec a w = (w, Ok (strx (w_heap w) c))) by (intro rec; eapply other_text; eassumption).
    destruct (u_frag v) as [|f0 f] eqn:Ef.
    - eexists. apply ev_pure. intro rec. rewrite K. unfold mbind at 1. unfold apply_id. unfold mbind at 1. rewrite Q. unfold mbind at 1, lift. rewrite Hv, Ef.
      unfold mbind at 1. rewrite (node_at_ok _ _ _ Ha). cbn [n_parent n_val].
      unfold mbind at 1, get_world. unfold mbind at 1. rewrite Hp, Nin. unfold mbind at 1. rewrite Ab. unfold mbind at 1. unfold mbind at 1. rewrite Hr.
      unfold mbind at 1. rewrite (has_obj rec w r rits _ Vr). cbn [dict_has]. rewrite dmem_get. unfold id_member in Hcr.
      destruct (dget (u "$id") rits) as [c'|] eqn:Eid.
      + injection Hcr as ->. unfold mbind at 1. rewrite (member_obj strx rec w r rits _ _ _ Vr Eid Vcr). unfold mbind at 1. rewrite Hb, Rs.
        unfold mbind at 1. rewrite (schema_at_ok _ _ _ Hy). unfold mbind at 1, add_schema. cbn [w_heap w_schemas w_store]. unfold mbind at 1. unfold store_add. unfold mbind at 1, lift. rewrite Ab'. reflexivity.
      + unfold mbind at 1. rewrite (has_obj rec w r rits _ Vr). cbn [dict_has]. rewrite dmem_get, Hcr. unfold mbind at 1. rewrite (member_obj strx rec w r rits _ _ _ Vr Hcr Vcr). unfold mbind at 1. rewrite Hb, Rs.
        unfold mbind at 1. rewrite (schema_at_ok _ _ _ Hy). unfold mbind at 1, add_schema. cbn [w_heap w_schemas w_store]. unfold mbind at 1. unfold store_add. unfold mbind at 1, lift. rewrite Ab'. reflexivity.
    - exists w. apply ev_pure. intro rec. rewrite K. unfold mbind at 1. unfold apply_id. unfold mbind at 1. rewrite Q. unfold mbind at 1, lift. rewrite Hv, Ef. reflexivity.
  Qed.
End Data.

Section Load.
  Variables (auth : pystr -> option authority) (dig : N -> option Z) (strx : heap -> addr -> pystr) (fetch : uri -> res pv).
  Notation ev := (ev auth dig strx fetch).
  Lemma load_meets w d s w0 bad : opened w (VDict d) s w0 -> (id_member d = None \/ exists t, id_member d = Some (VStr t)) -> (forall d, ~ bad [] d) ->
    stops auth dig strx fetch s (id_of (VDict d)) bad -> meets auth (id_of (VDict d)) bad [] (VDict d) -> exists w', ev (fun rec => load rec s) w0 w' (Raise EValue).
  Proof.
    intros O Tx Nb Stop M. destruct (opened_dict _ _ _ _ O) as (E & Es & Ess & Eh). set (r := length (w_heap w)) in *.
    assert (Hs : nth_error (w_schemas w0) s = Some (fresh r core)) by (rewrite Ess, E, nth_error_app2, Nat.sub_diag by lia; reflexivity).
    assert (Pl : placed (w_heap w0) r (wrap r None [] (VDict d))) by (rewrite Eh; apply placed_end).
    destruct (placed_head _ _ _ _ _ Pl) as (n & Hn & Ep & Ek).
    assert (K1 : keys_up (S r) (w_heap w0) r = Ok []) by (cbn [keys_up]; rewrite Hn, Ep; reflexivity).
    assert (K2 : root_up (S r) (w_heap w0) r = Ok r) by (cbn [root_up]; rewrite Hn, Ep; reflexivity).
    assert (Ri : root_id (w_heap w0) r (id_of (VDict d)) /\ bare (w_heap w0) r (id_of (VDict d))).
    { pose proof (wrap_holds _ _ _ _ _ Pl) as H. inversion H as [| | | | | | |? ? its V F]; subst.
      assert (T : texts (w_heap w0) its d) by (eapply Forall2_mono; [|exact F]; intros [k1 a1] [k2 x2] [E1 E2]; split; [exact E1|]; cbn [snd] in *; intros t ->; inversion E2; assumption).
      pose proof (texts_id _ _ _ T) as Ti. cbn [id_of]. destruct Tx as [Tx|[t Tx]]; rewrite Tx in *; (split; [exists its; split; [exact V|try exact I; exact Ti]|]); [|discriminate].
      intros _. exists its. split; [exact V|exact Ti]. }
    destruct Ri as [Ri Rb].
    assert (X : exists x, nth_error (w_schemas w0) s = Some x /\ s_voc x = core /\ s_ready x = false) by (eexists; split; [exact Hs|split; reflexivity]).
    destruct (process_meets auth dig strx fetch s (id_of (VDict d)) bad Nb Stop (VDict d) [] M w0 r None [] r Pl) as (w' & R).
    - constructor; auto.
    - split; [exact X|]. split; [exact K1|]. exists r. split; [exact K2|]. split; [lia|]. split; [congruence|exact Ri].
    - exists w'. unfold load. eapply ev_known; [apply schema_at_ok, Hs|]. cbn [s_ready fresh s_value]. apply ev_bind_raise. exact R.
  Qed.
  (** C84 fails for every document without identifier in which an object below the
      root, a list of properties for example, has a member named "id" that holds
      anything but a text: loading raises ValueError.  ([shown]: what Python prints
      for such a member; the first hypothesis: an empty authority is one.) *)
  Theorem C84_property w d s w0 : auth [] = Some (Auth [] [] []) -> shown strx -> opened w (VDict d) s w0 -> id_member d = None ->
    meets auth None (names_by no_text) [] (VDict d) -> exists w', ev (fun rec => load rec s) w0 w' (Raise EValue).
  Proof.
    intros Na Sh O Ni M. assert (Ei : id_of (VDict d) = None) by (cbn [id_of]; rewrite Ni; reflexivity).
    eapply load_meets; [exact O|left; exact Ni| | |rewrite Ei; exact M]; [intros d' (C & _); congruence|]. rewrite Ei. apply stops_alone; assumption.
  Qed.
  (** And for every document with an ordinary identifier (a scheme and a rooted path)
      in which such a member holds an object or an array without keywords of the
      core: resolved against the identifier its text is no absolute URI either. *)
  Theorem C84_property_identified printable w d s w0 rt b : auth [] = Some (Auth [] [] []) -> (forall h c x, holds h c x -> no_text x -> strx h c = text printable x) ->
    opened w (VDict d) s w0 -> id_member d = Some (VStr rt) -> mk_uri auth rt = Ok b -> u_scheme b <> [] -> (exists p, u_path b = 47%N :: p) ->
    meets auth (Some rt) (names_by (ordinary printable)) [] (VDict d) -> exists w', ev (fun rec => load rec s) w0 w' (Raise EValue).
  Proof.
    intros Na Sh O Ni Hb Hs Hp M. assert (Ei : id_of (VDict d) = Some rt) by (cbn [id_of]; rewrite Ni; reflexivity).
    eapply load_meets; [exact O|right; eauto| | |rewrite Ei; exact M]; [intros d' (C & _); congruence|]. rewrite Ei. eapply stops_identified; eassumption.
  Qed.
End Load.

(** ** Non-vacuity *)
(** [str] of a node that is not a text, by the model's [repr] with fuel for every
    node of the heap; nodes that contain themselves get some text of their kind. *)
Definition printed (printable : N -> bool) (h : heap) (a : addr) : pystr :=
  match hget h a with
  | Some n =>
      match node_repr printable (length h) h a with
      | Ok t => t
      | _ => match n_val n with PArr _ => u "[...]" | PObj _ => u "{...}" | PRef _ => u "JsonReference()" | PNum d => dec_text d ++ u ")" | PBool b => if b then u "JsonBool(True)" else u "JsonBool(False)" | _ => u "None)" end
      end
  | None => []
  end.
Lemma printed_shown printable : shown (printed printable).
Proof.
  intros h a n Hn. unfold printed. rewrite Hn. destruct (node_repr printable (length h) h a) as [t|e|] eqn:E; [exact (repr_shape _ _ _ _ _ _ E Hn)|..];
    (destruct (n_val n) as [|b|d|s|l|its|r]; cbn [shape]; try reflexivity; try exact I; [exists (dec_text d); split; [reflexivity|apply dec_text_chars]|exists (u "...]"); reflexivity|exists (u "...}"); reflexivity|exists (u ")"); reflexivity]).
Qed.
Lemma map_res_same {A B} (f g : A -> res B) l ts : (forall x t, In x l -> f x = Ok t -> g x = Ok t) -> map_res f l = Ok ts -> map_res g l = Ok ts.
Proof.
  revert ts. induction l as [|x l IH]; intros ts H E; [exact E|]. cbn [map_res] in *. destruct (f x) as [t|e|] eqn:Ex; cbn [bind] in E; try discriminate.
  destruct (map_res f l) as [ts'|e|] eqn:El; cbn [bind] in E; try discriminate. rewrite (H x t (or_introl eq_refl) Ex). cbn [bind]. rewrite (IH ts' (fun y t' Hy => H y t' (or_intror Hy)) eq_refl). exact E.
Qed.
Lemma repr_more printable h n m : (forall a t, node_repr printable n h a = Ok t -> node_repr printable m h a = Ok t) ->
  forall a t, node_repr printable (S n) h a = Ok t -> node_repr printable (S m) h a = Ok t.
Proof.
  intros IH a t E. cbn [node_repr] in *. destruct (hget h a) as [x|]; [|discriminate]. destruct (n_val x) as [|b|d|s|l|its|r]; try exact E.
  - destruct (map_res (node_repr printable n h) l) as [ts|e|] eqn:El; cbn [bind] in E; try discriminate. erewrite map_res_same; [exact E| |exact El]. intros y t0 _. apply IH.
  - match type of E with bind (map_res ?f its) _ = _ => destruct (map_res f its) as [ts|e|] eqn:El end; cbn [bind] in E; try discriminate. erewrite map_res_same; [exact E| |exact El].
    intros [k y] t0 _. cbn [fst snd]. destruct (node_repr printable n h y) as [t1|e|] eqn:E1; cbn [bind]; try discriminate. rewrite (IH _ _ E1). auto.
Qed.
Lemma repr_mono printable h n : forall m, n <= m -> forall a t, node_repr printable n h a = Ok t -> node_repr printable m h a = Ok t.
Proof. induction n as [|n IH]; intros m L; [discriminate|]. destruct m as [|m]; [lia|]. apply repr_more, IH. lia. Qed.
Lemma repr_fuel printable h n : forall (vis : list nat) a t, NoDup vis -> (forall v, In v vis -> v < length h /\ forall t, node_repr printable n h v <> Ok t) ->
  node_repr printable n h a = Ok t -> node_repr printable (length h - length vis) h a = Ok t.
Proof.
  induction n as [|n IH]; intros vis a t Nd Hv E; [discriminate|].
  assert (Hv' : forall v, In v vis -> v < length h /\ forall t, node_repr printable n h v <> Ok t).
  { intros v Hin. destruct (Hv v Hin) as [L K]. split; [exact L|]. intros t0 E0. apply (K t0). apply (repr_mono _ _ n); [lia|exact E0]. }
  assert (D : (exists t', node_repr printable n h a = Ok t') \/ forall t', node_repr printable n h a <> Ok t') by (destruct (node_repr printable n h a); [left; eauto|right; discriminate|right; discriminate]).
  destruct D as [[t' En]|En].
  - pose proof (repr_mono _ _ n (S n) ltac:(lia) _ _ En) as E'. rewrite E in E'. injection E' as <-. apply (IH vis a t Nd); assumption.
  - assert (La : a < length h). { cbn [node_repr] in E. destruct (hget h a) as [x|] eqn:Ha; [|discriminate]. eapply hget_lt, Ha. }
    assert (Na : ~ In a vis) by (intro C; exact (proj2 (Hv a C) _ E)).
    assert (Nd' : NoDup (a :: vis)) by (constructor; assumption).
    assert (Lv : length (a :: vis) <= length h).
    { rewrite <- (seq_length (length h) 0). apply NoDup_incl_length; [exact Nd'|]. intros v [<-|Hin]; apply in_seq; [lia|]. destruct (Hv v Hin). lia. }
    assert (Eq : forall n k, S k <= n -> n - k = S (n - S k)) by (intros; lia). rewrite (Eq (length h) (length vis) Lv). change (S (length vis)) with (length (a :: vis)). revert E. apply repr_more. intros c t0.
    apply (IH (a :: vis) c t0 Nd'). intros v [<-|Hin]; [split; assumption|apply Hv', Hin].
Qed.
Lemma printed_holds printable h c x : holds h c x -> no_text x -> printed printable h c = text printable x.
Proof.
  intros H _. destruct (PropsIdent.repr_holds printable h x c H) as [n0 E]. pose proof (repr_fuel printable h n0 [] c _ (NoDup_nil _) ltac:(intros v []) (E n0 (le_n _))) as K. cbn [length] in K. rewrite Nat.sub_0_r in K.
  unfold printed. rewrite K. destruct (hget h c) eqn:Hc; [reflexivity|]. exfalso. destruct (length h); [discriminate|]. cbn [node_repr] in K. rewrite Hc in K. discriminate.
Qed.

Local Notation D l := (VDict (map (fun kv => (u (fst kv), snd kv)) l)) (only parsing).
Local Notation S_ x := (VStr (u x)) (only parsing).
Definition C84_members : list (pystr * pv) := [
  (u "title", S_ "Person"); (u "type", S_ "object");
  (u "properties", D [("name", D [("$ref", S_ "#/definitions/name")]); ("id", D [("type", S_ "string"); ("minLength", VInt 1)])]);
  (u "definitions", D [("name", D [("$id", S_ "http://h/name.json"); ("type", S_ "string")])])]%string.
Lemma C84_members_meet : meets toy None (names_by no_text) [] (VDict C84_members).
Proof.
  apply (mt_below toy None _ [] [(u "title", S_ "Person"); (u "type", S_ "object")] (u "properties")); [repeat constructor; discriminate|]. apply mt_own.
  - constructor; [|constructor; [|constructor]].
    + apply fit_dict; [|repeat constructor; discriminate]. left. do 3 eexists. split; [reflexivity|]. split; [|split; reflexivity]. split; [vm_compute; reflexivity|]. split; [vm_compute; reflexivity|]. eexists. split; vm_compute; reflexivity.
    + apply fit_dict; [|repeat constructor; discriminate]. right. split; [reflexivity|]. split; left; reflexivity.
  - split; [discriminate|]. split; [intros [C|[]]; discriminate|]. split; [reflexivity|]. split; [reflexivity|]. eexists. split; [reflexivity|discriminate].
Qed.
(** {"title": "Person", "properties": {"id": {...}, ...}}, with and without "$id" *)
Example C84_person fetch : exists w0 w', opened empty_world (VDict C84_members) 0 w0 /\ id_member C84_members = None /\ shown (printed PropsIdent.printable0) /\
  ev toy ex_dig (printed PropsIdent.printable0) fetch (fun rec => load rec 0) w0 w' (Raise EValue).
Proof.
  eexists. destruct (C84_property toy ex_dig (printed PropsIdent.printable0) fetch empty_world C84_members 0 _ eq_refl (printed_shown _) eq_refl eq_refl C84_members_meet) as (w' & R).
  exists w'. split; [reflexivity|]. split; [reflexivity|]. split; [apply printed_shown|exact R].
Qed.
Example C84_identified fetch : exists d w0 w', d = (u "$id", S_ "http://h/person.json") :: C84_members /\ opened empty_world (VDict d) 0 w0 /\
  ev toy ex_dig (printed PropsIdent.printable0) fetch (fun rec => load rec 0) w0 w' (Raise EValue).
Proof.
  set (d := (u "$id", S_ "http://h/person.json") :: C84_members). exists d. eexists.
  destruct (C84_property_identified toy ex_dig (printed PropsIdent.printable0) fetch PropsIdent.printable0 empty_world d 0 _ (u "http://h/person.json") (Uri (u "http") (Auth [] (u "h") []) (u "/person.json") [] []) eq_refl (printed_holds _) eq_refl eq_refl) as (w' & R).
  - vm_compute. reflexivity.
  - discriminate.
  - eexists. vm_compute. reflexivity.
  - apply (mt_below toy _ _ [] [(u "$id", S_ "http://h/person.json"); (u "title", S_ "Person"); (u "type", S_ "object")] (u "properties")); [repeat constructor; discriminate|]. apply mt_own.
    + constructor; [|constructor; [|constructor]].
      * apply fit_dict; [|repeat constructor; discriminate]. left. do 3 eexists. split; [reflexivity|]. split; [|split; reflexivity]. split; [vm_compute; reflexivity|]. split; [vm_compute; reflexivity|]. eexists. split; vm_compute; reflexivity.
      * apply fit_dict; [|repeat constructor; discriminate]. right. split; [reflexivity|]. split; left; reflexivity.
    + split; [discriminate|]. split; [intros [C|[]]; discriminate|]. split; [reflexivity|]. split; [reflexivity|]. eexists. split; [reflexivity|]. split; [left; eexists; reflexivity|]. split.
      * apply wo_dict. repeat constructor; try discriminate; cbn; intuition discriminate.
      * intros a b E. match type of E with ?t = _ => assert (K : In 47%N t) by (rewrite E; apply in_or_app; right; left; reflexivity) end. revert K. vm_compute. intuition discriminate.
  - exists w'. split; [reflexivity|]. split; [reflexivity|exact R].
Qed.

(** ** C85 *)
From Verif Require Import PropsRefEdge.
(** Whatever the identifier of the document, the first reference is looked up as it
    stands: if the store does not have that URI and the loader does not find it, the
    document cannot be loaded, although the loader may have the one it resolves to. *)
Theorem C85_as_it_stands auth dig strx fetch w V s w0 d t v p b k : opened w V s w0 -> comes_first V d -> dget (u "$ref") d = Some (VStr t) ->
  mk_uri auth t = Ok v -> pointer_parse (u_frag v) = Ok p -> base_uri auth v = Ok b -> uri_bool b = true -> key_of auth v = Ok k -> dget k (w_store w) = None ->
  fetch v = Raise EFileNotFound -> ev auth dig strx fetch (fun rec => load rec s) w0 w0 (Raise ELoad).
Proof.
  intros O Cf Gt Mt Pt Bt Ut Kt St Ft. eapply C49_partial; [exact O|exact Cf|]. exists t, v, p, b, k. do 7 (split; [assumption|]). right. auto.
Qed.
Definition C85_loader (x : uri) : res pv := if str_eqb (uri_text x) (u "http://h/dir/other.json") then Ok (VDict [(u "type", VStr (u "object"))]) else Raise EFileNotFound.
Example C85_lost strx : let V := D [("x", D [("$ref", S_ "other.json")]); ("$id", S_ "http://h/dir/main.json")]%string in
  exists base ref full w0, mk_uri toy (u "http://h/dir/main.json") = Ok base /\ mk_uri toy (u "other.json") = Ok ref /\ resolve toy base ref = Ok full /\ C85_loader full = Ok (VDict [(u "type", VStr (u "object"))]) /\
    opened empty_world V 0 w0 /\ ev toy ex_dig strx C85_loader (fun rec => load rec 0) w0 w0 (Raise ELoad).
Proof.
  do 4 eexists. split; [vm_compute; reflexivity|]. split; [vm_compute; reflexivity|]. split; [vm_compute; reflexivity|]. split; [vm_compute; reflexivity|]. split; [reflexivity|].
  eapply (C85_as_it_stands _ _ _ _ empty_world (VDict _)); [reflexivity|apply (cf_member [] (u "x")); [constructor|]; apply cf_here; repeat constructor; discriminate|reflexivity|vm_compute; reflexivity..].
Qed.
