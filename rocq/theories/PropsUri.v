(** C53-C56, C66: URIs. *)
From Verif Require Import PyBase PyBaseFacts LeafFacts Regex RegexFacts Uri UriSpec UriFacts UriNorm PropsPointer PropsFormats.
Local Open Scope N_scope.
Local Notation length := List.length (only parsing).

(** ** Classes *)
Lemma letter_iff c : letter c <-> is_alpha c = true.
Proof. unfold letter, is_alpha, is_lower, is_upper, between. lia. Qed.
Lemma among_iff l c : among l c = true <-> In c l.
Proof.
  unfold among. rewrite existsb_exists. split; [intros (x & H & E); apply N.eqb_eq in E as ->; exact H|]. intro H. exists c. split; [exact H|apply N.eqb_refl].
Qed.
Lemma scheme_char_iff c : letter c \/ 48 <= c <= 57 \/ c = 43 \/ c = 45 \/ c = 46 <-> scheme_char c = true.
Proof.
  unfold scheme_char. rewrite !orb_true_iff, <- letter_iff, among_iff. unfold is_ascii_digit, between.
  change (u "+.-") with [43; 46; 45]. rewrite andb_true_iff, !N.leb_le. cbn [In]. split; [intros [H|[H|[H|[H|H]]]]|intros [[H|H]|[H|[H|[H|[]]]]]]; auto.
Qed.
Lemma scheme_text_iff s : scheme_text s <-> reads scheme_re s.
Proof.
  rewrite reads_scheme. unfold scheme_text. split; intros (c & w & E & Hc & Hw); exists c, w; (split; [exact E|]); (split; [apply letter_iff; exact Hc|]);
    (eapply Forall_impl; [|exact Hw]); intros x Hx; apply scheme_char_iff; exact Hx.
Qed.
Lemma lacks_forall l s p : (forall c, p c = negb (among l c)) -> lacks l s <-> Forall (fun c => p c = true) s.
Proof.
  intro Hp. unfold lacks. rewrite Forall_forall. split; intros H c Hc.
  - rewrite Hp. apply negb_true_iff. destruct (among l c) eqn:E; [|reflexivity]. apply among_iff in E. exfalso. exact (H c Hc E).
  - specialize (H c Hc). rewrite Hp in H. apply negb_true_iff in H. intro K. apply among_iff in K. congruence.
Qed.
Lemma lacks_auth s : lacks [47; 92; 63; 35] s <-> Forall (fun c => auth_char c = true) s.
Proof. apply lacks_forall. intro c. unfold auth_char, among. cbn. f_equal. destruct (c =? 92), (c =? 47), (c =? 63), (c =? 35); reflexivity. Qed.
Lemma lacks_path s : lacks (u "?#") s <-> Forall (fun c => path_char c = true) s.
Proof. apply lacks_forall. reflexivity. Qed.
Lemma lacks_hash s : lacks (u "#") s <-> Forall (fun c => no_hash c = true) s.
Proof. apply lacks_forall. intro c. unfold no_hash, one, among. cbn. rewrite orb_false_r. reflexivity. Qed.
Lemma lacks_newline s : lacks [10] s <-> Forall (fun c => no_newline_char c = true) s.
Proof. apply lacks_forall. intro c. unfold no_newline_char, one, among. cbn. rewrite orb_false_r. reflexivity. Qed.

(** ** Reading a text *)
Lemma app_split {A} (x1 : list A) : forall x2 y1 y2, x1 ++ x2 = y1 ++ y2 -> (exists l, x1 = y1 ++ l /\ y2 = l ++ x2) \/ (exists l, y1 = x1 ++ l /\ x2 = l ++ y2).
Proof.
  induction x1 as [|a x1 IH]; intros x2 y1 y2 E; [right; exists y1; auto|]. destruct y1 as [|b y1]; [left; exists (a :: x1); auto|].
  cbn in E. injection E as <- E. destruct (IH _ _ _ E) as [(l & -> & ->)|(l & -> & ->)]; [left|right]; exists l; auto.
Qed.
Lemma cut_scheme_some s r : scheme_text s -> cut_scheme (s ++ 58 :: r) = Some (s, r).
Proof.
  intro H. apply scheme_text_iff, reads_scheme in H as (c & w & -> & Hc & Hw). cbn [app cut_scheme]. rewrite Hc.
  rewrite drop_app, take_app; try exact Hw; try (intros x r0 [= <- _]; reflexivity). reflexivity.
Qed.
Lemma cut_scheme_sound t w r : cut_scheme t = Some (w, r) -> t = w ++ 58 :: r /\ scheme_text w.
Proof.
  intro E. unfold cut_scheme in E. destruct t as [|c s]; [discriminate|].
  destruct (is_alpha c) eqn:Hc; [|discriminate]. destruct (drop_while scheme_char s) as [|x r'] eqn:Ed; [discriminate|].
  destruct (N.eqb_spec x 58) as [->|]; [|discriminate]. injection E as <- <-. split.
  - cbn [app]. f_equal. rewrite <- (take_drop scheme_char s) at 1. rewrite Ed. reflexivity.
  - apply scheme_text_iff, reads_scheme. exists c, (take_while scheme_char s). split; [reflexivity|]. split; [exact Hc|apply take_all].
Qed.
Definition heads (l : pystr) (s : pystr) : Prop := s = [] \/ exists c r, s = c :: r /\ In c l.
Lemma heads_false l s (p : N -> bool) : heads l s -> (forall c, In c l -> p c = false) -> forall c r0, s = c :: r0 -> p c = false.
Proof. intros [->|(x & r & -> & Hx)] Hp c r0 E; [discriminate|]. injection E as <- _. apply Hp. exact Hx. Qed.
Lemma scheme_lacks w c : scheme_text w -> In c w -> c <> 63 /\ c <> 35 /\ c <> 58 /\ c <> 47 /\ c <> 92.
Proof.
  intros (x & w' & -> & Hx & Hw) [->|H]; [unfold letter in Hx; lia|]. rewrite Forall_forall in Hw. specialize (Hw c H). unfold letter in Hw. lia.
Qed.
Lemma cut_scheme_none p t : heads (u "?#") t -> (forall w r, p = w ++ u ":" ++ r -> ~ scheme_text w) -> cut_scheme (p ++ t) = None.
Proof.
  intros Ht Hp. destruct (cut_scheme (p ++ t)) as [[w r]|] eqn:E; [|reflexivity]. exfalso. apply cut_scheme_sound in E as [E Hw].
  apply app_split in E as [(l & -> & E2)|(l & E1 & E2)].
  - destruct l as [|x l]; [|injection E2 as E2 _; subst x; exact (Hp w l eq_refl Hw)].
    destruct Ht as [->|(c & r0 & -> & Hc)]; [discriminate|]. cbn in E2. injection E2 as E2 _. subst c. cbn in Hc. intuition discriminate.
  - destruct Ht as [->|(c & r0 & -> & Hc)]; [destruct l; discriminate|]. destruct l as [|x l]; cbn in E2; injection E2 as E2 _; subst c.
    + cbn in Hc. intuition discriminate.
    + subst w. destruct (scheme_lacks _ x Hw) as (K1 & K2 & _); [apply in_or_app; right; left; reflexivity|]. cbn in Hc. intuition.
Qed.
Lemma cut_scheme_slash t c : c = 47 \/ c = 92 -> cut_scheme (c :: t) = None.
Proof. intros [->| ->]; reflexivity. Qed.
Lemma cut_auth_some a t : lacks [47; 92; 63; 35] a -> heads [47; 92; 63; 35] t -> cut_auth (u "//" ++ a ++ t) = Some (a, t).
Proof.
  intros Ha Ht. change (u "//" ++ a ++ t) with (47 :: 47 :: a ++ t). unfold cut_auth. change ((47 =? slash) && (47 =? slash)) with true. cbv iota.
  apply lacks_auth in Ha. rewrite take_app, drop_app; try exact Ha; try (apply (heads_false [47; 92; 63; 35]); [exact Ht|]; cbn; intuition; subst; reflexivity).
  reflexivity.
Qed.
Lemma cut_auth_sound t a r : cut_auth t = Some (a, r) -> t = u "//" ++ a ++ r /\ lacks [47; 92; 63; 35] a /\ heads [47; 92; 63; 35] r.
Proof.
  unfold cut_auth. destruct t as [|x [|y t]]; try discriminate. destruct (N.eqb_spec x slash) as [->|]; [|discriminate].
  destruct (N.eqb_spec y slash) as [->|]; [|discriminate]. cbn [andb]. intros [= <- <-]. split; [cbn; f_equal; f_equal; symmetry; apply take_drop|].
  split; [apply lacks_auth, take_all|]. destruct (drop_while auth_char t) as [|c r] eqn:E; [left; reflexivity|right]. exists c, r. split; [reflexivity|].
  apply drop_head in E. unfold auth_char in E. apply negb_false_iff, among_iff in E. cbn in *. tauto.
Qed.
Lemma cut_auth_none t : (forall r, t <> u "//" ++ r) -> cut_auth t = None.
Proof.
  intro H. destruct (cut_auth t) as [[a r]|] eqn:E; [|reflexivity]. apply cut_auth_sound in E as [-> _]. exfalso. exact (H _ eq_refl).
Qed.
Lemma cut_mark_some m (p : N -> bool) w t : Forall (fun c => p c = true) w -> (forall c r0, t = c :: r0 -> p c = false) -> cut_mark m p (m :: w ++ t) = Some (w, t).
Proof. intros Hw Ht. unfold cut_mark. rewrite N.eqb_refl, take_app, drop_app; auto. Qed.
Lemma cut_mark_none m p t : (forall c r0, t = c :: r0 -> c <> m) -> cut_mark m p t = None.
Proof. intro H. destruct t as [|c r]; [reflexivity|]. cbn. destruct (N.eqb_spec c m) as [->|]; [|reflexivity]. exfalso. exact (H m r eq_refl eq_refl). Qed.

Definition hash_part (f : option pystr) : pystr := match f with Some f => u "#" ++ f | None => [] end.
Definition query_part (q : option pystr) : pystr := match q with Some f => u "?" ++ f | None => [] end.
Definition text_of (o : option pystr) : pystr := match o with Some s => s | None => [] end.
Definition junk (f : option pystr) (t : pystr) : Prop := t = [] \/ (f <> None /\ exists r, t = 10 :: r).
Lemma parts_of sc au p q f t : proper sc au p q f -> junk f t -> let s := compose sc au p q f ++ t in
  raw_scheme s = text_of sc /\ raw_auth s = text_of au /\ raw_path s = p /\ raw_query s = text_of q /\ raw_frag s = text_of f.
Proof.
  intros (P1 & P2 & P3 & P4 & P5 & P6 & P7) Ht s.
  set (F := hash_part f ++ t). set (Q := query_part q ++ F).
  assert (Es : s = (match sc with Some s => s ++ u ":" | None => [] end) ++ (match au with Some a => u "//" ++ a | None => [] end) ++ p ++ Q).
  { unfold s, compose, Q, F, query_part, hash_part. rewrite <- !app_assoc. reflexivity. }
  assert (HF : heads (u "#") F).
  { unfold F. destruct f as [f|]; [right; cbn; eauto|]. destruct Ht as [->|[K _]]; [left; reflexivity|congruence]. }
  assert (HQ : heads (u "?#") Q).
  { unfold Q. destruct q as [q|]; [right; cbn; eauto|]. cbn. destruct HF as [->|(c & r & -> & Hc)]; [left; reflexivity|right; exists c, r]. cbn in *. intuition. }
  set (A := (match au with Some a => u "//" ++ a | None => [] end) ++ p ++ Q) in *.
  assert (C1 : cut_scheme s = option_map (fun w => (w, A)) sc).
  { rewrite Es. destruct sc as [w|]; cbn [option_map].
    - rewrite <- app_assoc. apply cut_scheme_some. auto.
    - cbn [app]. unfold A. destruct au as [a|]; [reflexivity|]. cbn [app]. apply cut_scheme_none; [exact HQ|exact (P4 eq_refl eq_refl)]. }
  assert (EA : after_scheme s = A).
  { unfold after_scheme. rewrite C1. destruct sc; [reflexivity|]. exact Es. }
  assert (C2 : cut_auth A = option_map (fun a => (a, p ++ Q)) au).
  { unfold A. destruct au as [a|]; cbn [option_map].
    - rewrite <- app_assoc. destruct (P2 a eq_refl) as [Ha Hp]. apply cut_auth_some; [exact Ha|].
      destruct Hp as [->|[r [->| ->]]]; [|right; eexists; eexists; split; [reflexivity|]; cbn; tauto..].
      cbn [app]. destruct HQ as [->|(c & r & -> & Hc)]; [left; reflexivity|right; exists c, r]. split; [reflexivity|]. cbn in *; tauto.
    - cbn [app]. apply cut_auth_none. intros r E. apply app_split in E as [(l & E1 & _)|(l & E1 & E2)]; [exact (P3 eq_refl l E1)|].
      change (u "//") with [47; 47] in E1. destruct p as [|x [|y [|z p]]]; cbn in E1; try discriminate; try (injection E1 as <- <- E1).
      + subst l. destruct HQ as [->|(c & r0 & -> & Hc)]; [discriminate|]. cbn in E2, Hc. injection E2 as -> _. intuition discriminate.
      + injection E1 as <- <-. destruct HQ as [->|(c & r0 & -> & Hc)]; [discriminate|]. cbn in E2, Hc. injection E2 as -> _. intuition discriminate.
      + exact (P3 eq_refl [] eq_refl). }
  assert (EB : after_auth s = p ++ Q).
  { unfold after_auth. rewrite EA. cbv zeta. rewrite C2. destruct au; reflexivity. }
  assert (HQp : forall c r0, Q = c :: r0 -> path_char c = false).
  { apply (heads_false (u "?#")); [exact HQ|]. intros c [<-|[<-|[]]]; reflexivity. }
  apply lacks_path in P5.
  assert (EP : raw_path s = p) by (unfold raw_path; rewrite EB; apply take_app; assumption).
  assert (EQ : after_path s = Q) by (unfold after_path; rewrite EB; apply drop_app; assumption).
  assert (C3 : cut_mark 63 no_hash Q = option_map (fun w => (w, F)) q).
  { unfold Q. destruct q as [q|]; cbn [option_map query_part].
    - change ((u "?" ++ q) ++ F) with (63 :: q ++ F). apply cut_mark_some; [apply lacks_hash; auto|].
      apply (heads_false (u "#")); [exact HF|]. intros c [<-|[]]; reflexivity.
    - cbn [app]. apply cut_mark_none. intros c r0 E. destruct HF as [HF|(c' & r & HF & Hc)]; rewrite HF in E; [discriminate|].
      injection E as <- _. destruct Hc as [<-|[]]. discriminate. }
  assert (EF : after_query s = F).
  { unfold after_query. rewrite EQ. cbv zeta. rewrite C3. unfold Q. destruct q; reflexivity. }
  assert (C4 : cut_mark 35 no_newline_char F = option_map (fun w => (w, t)) f).
  { unfold F. destruct f as [f|]; cbn [option_map hash_part].
    - change ((u "#" ++ f) ++ t) with (35 :: f ++ t). apply cut_mark_some; [apply lacks_newline; auto|].
      intros c r0 ->. destruct Ht as [Ht|[_ [r Ht]]]; [discriminate|]. injection Ht as -> _. reflexivity.
    - destruct Ht as [->|[K _]]; [reflexivity|congruence]. }
  unfold raw_scheme, raw_auth, raw_query, raw_frag. rewrite C1, EA, C2, EQ, C3, EF, C4, EP.
  destruct sc, au, q, f; cbn; auto.
Qed.
Lemma parts_exist s : exists sc au p q f t, s = compose sc au p q f ++ t /\ proper sc au p q f /\ junk f t.
Proof.
  set (A := after_scheme s). set (B := after_auth s). set (Q := after_path s). set (F := after_query s).
  set (sc := option_map fst (cut_scheme s)). set (au := option_map fst (cut_auth A)). set (p := raw_path s).
  set (q := option_map fst (cut_mark 63 no_hash Q)). set (f := option_map fst (cut_mark 35 no_newline_char F)).
  set (t := rest (cut_mark 35 no_newline_char F) F).
  assert (ES : s = (match sc with Some s => s ++ u ":" | None => [] end) ++ A).
  { unfold sc, A, after_scheme. destruct (cut_scheme s) as [[w r]|] eqn:E; [|reflexivity]. cbn. apply cut_scheme_sound in E as [-> _]. rewrite <- app_assoc. reflexivity. }
  assert (EA : A = (match au with Some a => u "//" ++ a | None => [] end) ++ B).
  { unfold au, B, after_auth. fold A. cbv zeta. destruct (cut_auth A) as [[w r]|] eqn:E; [|reflexivity]. cbn [option_map fst rest]. apply cut_auth_sound in E as (-> & _). rewrite <- app_assoc. reflexivity. }
  assert (EB : B = p ++ Q) by (unfold p, raw_path, Q, after_path; fold B; symmetry; apply take_drop).
  assert (EQ : Q = query_part q ++ F).
  { unfold q, F, after_query. fold Q. cbv zeta. unfold cut_mark. destruct Q as [|x r]; [reflexivity|]. destruct (N.eqb_spec x 63) as [->|]; [|reflexivity].
    cbn. rewrite take_drop. reflexivity. }
  assert (EF : F = hash_part f ++ t).
  { unfold f, t. unfold cut_mark. destruct F as [|x r]; [reflexivity|]. destruct (N.eqb_spec x 35) as [->|]; [|reflexivity].
    cbn. rewrite take_drop. reflexivity. }
  assert (HQ : heads (u "?#") Q).
  { destruct Q as [|c r] eqn:E; [left; reflexivity|right; exists c, r]. split; [reflexivity|]. unfold Q, after_path in E. apply drop_head in E.
    unfold path_char in E. apply negb_false_iff, among_iff in E. exact E. }
  assert (Hp : Forall (fun c => path_char c = true) p) by apply take_all.
  assert (HF : heads (u "#") F).
  { unfold F, after_query. fold Q. cbv zeta. destruct HQ as [->|(c & r & -> & [<-|[<-|[]]])]; [left; reflexivity| |right; exists 35, r; cbn; auto].
    cbn. destruct (drop_while no_hash r) as [|y r'] eqn:E; [left; reflexivity|right; exists y, r']. split; [reflexivity|].
    apply drop_head in E. unfold no_hash, one in E. apply negb_false_iff, N.eqb_eq in E as ->. left; reflexivity. }
  assert (K1 : forall w, sc = Some w -> scheme_text w).
  { unfold sc. intros w E. destruct (cut_scheme s) as [[w' r]|] eqn:E1; [|discriminate]. injection E as <-. apply cut_scheme_sound in E1 as [_ H]. exact H. }
  assert (K2 : forall a, au = Some a -> lacks [47; 92; 63; 35] a /\ heads [47; 92; 63; 35] B).
  { unfold au. intros a E. destruct (cut_auth A) as [[a' r]|] eqn:E1; [|discriminate]. injection E as <-.
    assert (Er : r = B) by (unfold B, after_auth; fold A; cbv zeta; rewrite E1; reflexivity). rewrite <- Er.
    apply cut_auth_sound in E1 as (_ & H & Hr). split; assumption. }
  assert (K3 : au = None -> forall r, A <> u "//" ++ r).
  { unfold au. intros E r Er. destruct (cut_auth A) as [[a' r']|] eqn:E1; [discriminate|]. rewrite Er in E1. discriminate. }
  assert (K4 : sc = None -> forall w r, s = w ++ u ":" ++ r -> ~ scheme_text w).
  { unfold sc. intros E w r Er Hw. destruct (cut_scheme s) as [[w' r']|] eqn:E1; [discriminate|]. rewrite Er in E1.
    change (u ":" ++ r) with (58 :: r) in E1. rewrite cut_scheme_some in E1 by exact Hw. discriminate. }
  assert (K6 : forall w, q = Some w -> lacks (u "#") w).
  { unfold q. intros w E. unfold cut_mark in E. destruct Q as [|x r]; [discriminate|]. destruct (x =? 63); [|discriminate]. injection E as <-. apply lacks_hash, take_all. }
  assert (K7 : forall w, f = Some w -> lacks [10] w).
  { unfold f. intros w E. unfold cut_mark in E. destruct F as [|x r]; [discriminate|]. destruct (x =? 35); [|discriminate]. injection E as <-. apply lacks_newline, take_all. }
  assert (KJ : junk f t).
  { unfold f, t. destruct HF as [->|(c & r & -> & [<-|[]])]; [left; reflexivity|]. cbn. destruct (drop_while no_newline_char r) as [|y r'] eqn:E; [left; reflexivity|right].
    split; [discriminate|]. apply drop_head in E. unfold no_newline_char, one in E. apply negb_false_iff, N.eqb_eq in E as ->. eauto. }
  exists sc, au, p, q, f, t. split; [|split; [|exact KJ]].
  - rewrite ES at 1. rewrite EA, EB, EQ, EF. unfold compose, query_part, hash_part. rewrite <- !app_assoc. reflexivity.
  - clearbody sc au p q f t F Q B A. split; [exact K1|]. split; [|split; [|split; [|split; [apply lacks_path; exact Hp|split; [exact K6|exact K7]]]]].
    + intros a Ea. destruct (K2 a Ea) as [H1 H2]. split; [exact H1|]. rewrite EB in H2. destruct Hp as [|c p Pc Hp]; [left; reflexivity|right; exists p].
      destruct H2 as [H2|(x & r0 & Hr & Hx)]; [discriminate|]. injection Hr as <- _. unfold path_char in Pc. apply negb_true_iff in Pc.
      cbn [In] in Hx. destruct Hx as [<-|[<-|[<-|[<-|[]]]]]; auto; discriminate.
    + intros Ea r Ep. apply (K3 Ea (r ++ Q)). rewrite EA, Ea, EB, Ep, <- app_assoc. reflexivity.
    + intros E1 E2 w r Ep. apply (K4 E1 w (r ++ Q)). rewrite ES, E1, EA, E2, EB, Ep, <- !app_assoc. reflexivity.
Qed.

(** ** C66: the parts of a URI *)
Definition path_after (scheme path : pystr) : pystr := match scheme with [] => path | _ => normalize_path path end.
Lemma raise_iff s t : escapes_raised s t <-> t = upper_escapes s.
Proof.
  assert (HX : forall x, hex_digit x <-> is_hex x = true).
  { intro x. unfold hex_digit, lower_hex, is_hex, is_ascii_digit, between. rewrite !orb_true_iff, !andb_true_iff, !N.leb_le. lia. }
  assert (RX : forall x, hex_digit x -> raised x = upper_char x).
  { intros x Hx. unfold raised, upper_char, is_lower, between. unfold hex_digit, lower_hex in Hx.
    destruct (N.leb_spec 97 x), (N.leb_spec x 102), (N.leb_spec x 122); cbn [andb]; try reflexivity; lia. }
  split.
  - induction 1 as [|c d s t Hc Hd _ IH|c s t Hn _ IH]; [reflexivity| |].
    + rewrite upper_step. rewrite !(RX _) by assumption. apply HX in Hc, Hd. rewrite Hc, Hd. cbn [andb]. change (one 37 37) with true. subst t. reflexivity.
    + subst t. destruct s as [|a [|b s]]; try reflexivity. rewrite upper_step. destruct (one 37 c && is_hex a && is_hex b) eqn:E; [|reflexivity].
      exfalso. apply andb_true_iff in E as [E Eb]. apply andb_true_iff in E as [Ec Ea]. apply N.eqb_eq in Ec. apply Hn. split; [exact Ec|].
      exists a, b, s. rewrite !HX. auto.
  - intros ->. assert (G : forall n s, (length s <= n)%nat -> escapes_raised s (upper_escapes s)).
    { clear s. induction n as [|n IH]; intros [|c s] Hl; try constructor; [cbn in Hl; lia|]. cbn in Hl. destruct s as [|a [|b s]].
      - apply raised_other; [intros (_ & x & y & r & E & _); discriminate|constructor].
      - apply raised_other; [intros (_ & x & y & r & E & _); discriminate|]. apply (IH [a]). cbn in *; lia.
      - rewrite upper_step. destruct (one 37 c && is_hex a && is_hex b) eqn:E.
        + apply andb_true_iff in E as [E Eb]. apply andb_true_iff in E as [Ec Ea]. apply N.eqb_eq in Ec as ->. apply HX in Ea, Eb.
          rewrite <- !RX by assumption. apply raised_escape; [exact Ea|exact Eb|]. apply IH. cbn in Hl; lia.
        + apply raised_other; [|apply IH; cbn in *; lia]. intros (-> & x & y & r & [= <- <- <-] & Ha & Hb). apply HX in Ha, Hb. rewrite Ha, Hb in E. discriminate. }
    exact (G _ s (le_n _)).
Qed.
Lemma normal_path_iff p : normal_path p (normalize_path p).
Proof.
  exists (upper_escapes p). split; [apply raise_iff; reflexivity|]. destruct p as [|c p]; [apply (remove_dots_spec [])|]. apply remove_dots_spec.
Qed.

(** every text has the RFC's parts and [Uri] finds them; the only characters
    ignored are a line feed in the fragment and what follows it *)
Theorem C66_parts auth s : exists sc au p q f t,
  s = compose sc au p q f ++ t /\ proper sc au p q f /\ (t = [] \/ (f <> None /\ exists r, t = 10 :: r)) /\
  (auth (text_of au) = None -> mk_uri auth s = Raise EAttr) /\
  (forall a, auth (text_of au) = Some a -> exists v, mk_uri auth s = Ok v /\
     u_scheme v = map lower_char (text_of sc) /\ u_auth v = a /\
     (sc = None -> u_path v = p) /\ (sc <> None -> normal_path p (u_path v)) /\
     escapes_raised (text_of q) (u_query v) /\ escapes_raised (text_of f) (u_frag v)).
Proof.
  destruct (parts_exist s) as (sc & au & p & q & f & t & E & P & J). exists sc, au, p, q, f, t. split; [exact E|]. split; [exact P|]. split; [exact J|].
  destruct (parts_of sc au p q f t P J) as (E1 & E2 & E3 & E4 & E5). rewrite <- E in *. rewrite (mk_uri_parts auth s), E1, E2, E3, E4, E5. split.
  - intros ->. reflexivity.
  - intros a ->. eexists. split; [reflexivity|]. cbn. split; [reflexivity|]. split; [reflexivity|]. split; [|split; [|split; apply raise_iff; reflexivity]].
    + intros ->. reflexivity.
    + intro Hs. destruct sc as [w|]; [|congruence]. destruct P as [P1 _]. destruct (P1 w eq_refl) as (c & w' & -> & _). cbn. apply normal_path_iff.
Qed.
(** and a text put together from proper parts is taken apart into the same *)
Theorem C66_composed auth sc au p q f a : proper sc au p q f -> auth (text_of au) = Some a -> exists v, mk_uri auth (compose sc au p q f) = Ok v /\
  u_scheme v = map lower_char (text_of sc) /\ u_auth v = a /\
  (sc = None -> u_path v = p) /\ (sc <> None -> normal_path p (u_path v)) /\
  escapes_raised (text_of q) (u_query v) /\ escapes_raised (text_of f) (u_frag v).
Proof.
  intros P Ha. destruct (parts_of sc au p q f [] P (or_introl eq_refl)) as (E1 & E2 & E3 & E4 & E5). rewrite app_nil_r in *.
  rewrite (mk_uri_parts auth _), E1, E2, E3, E4, E5, Ha. eexists. split; [reflexivity|]. cbn.
  split; [reflexivity|]. split; [reflexivity|]. split; [|split; [|split; apply raise_iff; reflexivity]].
  - intros ->. reflexivity.
  - intro Hs. destruct sc as [w|]; [|congruence]. destruct P as [P1 _]. destruct (P1 w eq_refl) as (c & w' & -> & _). cbn. apply normal_path_iff.
Qed.
