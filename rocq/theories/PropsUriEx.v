(** C53-C56, C66 on concrete URIs; the claims that fail. *)
From Verif Require Import PyBase PyBaseFacts LeafFacts Regex RegexFacts Uri UriSpec UriFacts UriNorm PropsUri PropsPointer PropsResolve PropsUriText.
Local Open Scope N_scope.
Local Notation length := List.length (only parsing).

(** An authority pattern for the examples: a host, and a port of digits behind a colon. *)
Definition no_colon (c : N) : bool := negb (c =? 58).
Definition toy (s : pystr) : option authority :=
  match drop_while no_colon s with
  | [] => Some (Auth [] s [])
  | _ :: p => if forallb is_ascii_digit p then Some (Auth [] (take_while no_colon s) p) else None
  end.
Lemma toy_ok : auth_ok toy.
Proof.
  split; [reflexivity|]. intros s a Hs H. unfold toy in H. pose proof (take_drop no_colon s) as E. pose proof (take_all no_colon s) as T.
  destruct (drop_while no_colon s) as [|c p] eqn:D.
  - injection H as <-. rewrite app_nil_r in E. rewrite E in T. unfold auth_text. cbn. rewrite app_nil_r. unfold toy. rewrite D. auto.
  - pose proof (drop_head no_colon s c p D) as Hc. unfold no_colon in Hc. apply negb_false_iff, N.eqb_eq in Hc. subst c.
    destruct (forallb is_ascii_digit p) eqn:F; [|discriminate]. injection H as <-. set (h := take_while no_colon s) in *. clearbody h. subst s.
    unfold auth_text. cbn [a_user a_host a_port app]. destruct p as [|x p].
    + rewrite app_nil_r. unfold toy. pose proof (drop_app no_colon h [] T ltac:(discriminate)) as D'. rewrite app_nil_r in D'. rewrite D'.
      split; [reflexivity|]. apply lacks_app in Hs. apply Hs.
    + unfold toy. change (u ":" ++ x :: p) with (58 :: x :: p). rewrite D, F. split; [|exact Hs]. f_equal. f_equal. apply take_app; [exact T|]. intros c r0 [= <- _]. reflexivity.
Qed.

Definition shown (m : res uri) : res pystr := v <- m ;; Ok (uri_text v).
Definition resolved (b r : pystr) : res pystr := v <- mk_uri toy b ;; shown (resolve_str toy v r).

(** ** C53 *)
Example C53_up : resolved (u "http://test.com/path/to/file.json") (u "../some/file.json") = Ok (u "http://test.com/path/some/file.json").
Proof. vm_compute. reflexivity. Qed.
Example C53_abs : resolved (u "http://test.com/to/file.json#fragment/part") (u "http://test.com/path/to/file.json#fragment/part") = Ok (u "http://test.com/path/to/file.json#fragment/part").
Proof. vm_compute. reflexivity. Qed.
Example C53_slash : resolved (u "http://test.com/to/file.json#fragment/part") (u "/path/to/file.json#fragment/part2") = Ok (u "http://test.com/path/to/file.json#fragment/part2").
Proof. vm_compute. reflexivity. Qed.
Example C53_fragment : resolved (u "http://test.com/to/file.json?a=b#x") (u "#y") = Ok (u "http://test.com/to/file.json?a=b#y").
Proof. vm_compute. reflexivity. Qed.
(** the hypotheses of [C53_resolve_partial], met *)
Example C53_some : exists b r, made toy b /\ made toy r /\ u_scheme b <> [] /\ In 47 (u_path b) /\ is_absolute toy r = Ok false /\
  exists w, resolve toy b r = Ok w /\ uri_text w = u "http://h/a/c".
Proof.
  destruct (mk_uri toy (u "http://h/a/b/x")) as [b| |] eqn:Eb; [|vm_compute in Eb; discriminate..].
  destruct (mk_uri toy (u "../c")) as [r| |] eqn:Er; [|vm_compute in Er; discriminate..].
  exists b, r. split; [exact (made_text toy _ _ Eb)|]. split; [exact (made_text toy _ _ Er)|].
  vm_compute in Eb. vm_compute in Er. injection Eb as <-. injection Er as <-.
  split; [discriminate|]. split; [left; reflexivity|]. split; [vm_compute; reflexivity|]. eexists. split; vm_compute; reflexivity.
Qed.
Example C53_absolute_some : exists v, mk_uri toy (u "https://path:80/to/%2ffile.json?q=1") = Ok v /\ u_scheme v <> [] /\ is_absolute toy v = Ok true.
Proof. eexists. split; [vm_compute; reflexivity|]. split; [discriminate|vm_compute; reflexivity]. Qed.
Example C53_not_absolute : exists v, mk_uri toy (u "https://path/a b") = Ok v /\ u_scheme v <> [] /\ is_absolute toy v = Ok false.
Proof. eexists. split; [vm_compute; reflexivity|]. split; [discriminate|vm_compute; reflexivity]. Qed.
(** A base path without slash loses its last character instead of its last segment. *)
Theorem C53_no_slash_refuted : exists b r w, made toy b /\ made toy r /\ resolve toy b r = Ok w /\
  u_path b = u "foo" /\ u_path r = u "bar" /\ u_path w = u "fo/bar".
Proof.
  destruct (mk_uri toy (u "foo")) as [b| |] eqn:Eb; [|vm_compute in Eb; discriminate..].
  destruct (mk_uri toy (u "bar")) as [r| |] eqn:Er; [|vm_compute in Er; discriminate..].
  exists b, r. eexists. split; [exact (made_text toy _ _ Eb)|]. split; [exact (made_text toy _ _ Er)|].
  vm_compute in Eb. vm_compute in Er. injection Eb as <-. injection Er as <-. do 3 (split; [vm_compute; reflexivity|]); vm_compute; reflexivity.
Qed.
(** A base without scheme keeps the dot segments. *)
Theorem C53_relative_base_refuted : exists b r w, made toy b /\ made toy r /\ resolve toy b r = Ok w /\ u_path w = u "/a/../c" /\ ~ dotless (u_path w).
Proof.
  destruct (mk_uri toy (u "/a/b")) as [b| |] eqn:Eb; [|vm_compute in Eb; discriminate..].
  destruct (mk_uri toy (u "../c")) as [r| |] eqn:Er; [|vm_compute in Er; discriminate..].
  exists b, r. eexists. split; [exact (made_text toy _ _ Eb)|]. split; [exact (made_text toy _ _ Er)|].
  vm_compute in Eb. vm_compute in Er. injection Eb as <-. injection Er as <-. split; [vm_compute; reflexivity|]. split; [vm_compute; reflexivity|].
  intro D. apply (D (u "..")); [vm_compute; tauto|right; reflexivity].
Qed.
(** A reference without scheme but with a port counts as absolute. *)
Theorem C53_port_refuted : exists v, mk_uri toy (u "//localhost:80/x") = Ok v /\ u_scheme v = [] /\ is_absolute toy v = Ok true.
Proof. eexists. split; [vm_compute; reflexivity|]. split; vm_compute; reflexivity. Qed.

(** ** C54 *)
Example C54_some : exists v, mk_uri toy (u "https://domain.com/../some/../p%c3th/./index.htm") = Ok v /\ made toy v /\ u_scheme v <> [] /\ u_path v = u "/p%C3th/index.htm".
Proof.
  destruct (mk_uri toy (u "https://domain.com/../some/../p%c3th/./index.htm")) as [v| |] eqn:E; [|vm_compute in E; discriminate..].
  exists v. split; [reflexivity|]. split; [exact (made_text toy _ _ E)|]. vm_compute in E. injection E as <-. split; [discriminate|vm_compute; reflexivity].
Qed.

(** ** C55 *)
Theorem C55_refuted : exists v w, mk_uri toy (u "urn:x") = Ok v /\ mk_uri toy (uri_text v) = Ok w /\ uri_text v = u "urn://x" /\ uri_eq w v = false.
Proof. eexists. eexists. do 3 (split; [vm_compute; reflexivity|]); vm_compute; reflexivity. Qed.
Theorem C55_network_refuted : exists v w, mk_uri toy (u "//host/p") = Ok v /\ mk_uri toy (uri_text v) = Ok w /\ uri_text v = u "host/p" /\ uri_eq w v = false.
Proof. eexists. eexists. do 3 (split; [vm_compute; reflexivity|]); vm_compute; reflexivity. Qed.
Example C55_some : auth_ok toy /\ exists v, mk_uri toy (u "http://h:80/a?b#c") = Ok v /\ printable v /\ uri_text v = u "http://h:80/a?b#c".
Proof.
  split; [exact toy_ok|]. eexists. split; [vm_compute; reflexivity|]. split; [|vm_compute; reflexivity]. left. split; [discriminate|]. right. eexists. left. vm_compute. reflexivity.
Qed.
Example C55_path : exists v, mk_uri toy (u "../a/b.json#c") = Ok v /\ printable v /\ uri_text v = u "../a/b.json#c".
Proof.
  eexists. split; [vm_compute; reflexivity|]. split; [|vm_compute; reflexivity]. right. split; [reflexivity|]. split; [reflexivity|]. intros r K. vm_compute in K. discriminate.
Qed.

(** ** C56 *)
Example C56_some : exists v w, mk_uri toy (u "HTTP://h/a/./b%2f") = Ok v /\ mk_uri toy (u "http://h/a/b%2F") = Ok w /\ uri_eq v w = true.
Proof. eexists. eexists. do 2 (split; [vm_compute; reflexivity|]); vm_compute; reflexivity. Qed.
Example C56_base_some : exists v b, mk_uri toy (u "http://h/a?q#f") = Ok v /\ base_uri toy v = Ok b /\ uri_text b = u "http://h/a".
Proof. eexists. eexists. do 2 (split; [vm_compute; reflexivity|]); vm_compute; reflexivity. Qed.
