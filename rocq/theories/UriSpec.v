(** Vocabulary for the claims about URIs. *)
From Verif Require Import PyBase.
Local Open Scope N_scope.
Local Notation length := List.length (only parsing).

(** The segments of a path are the texts between slashes. *)
Fixpoint segments (s : pystr) : list pystr :=
  match s with
  | [] => [[]]
  | c :: s' => match segments s' with
               | w :: ws => if c =? 47 then [] :: w :: ws else (c :: w) :: ws
               | [] => []
               end
  end.
Definition dot_segment (w : pystr) : Prop := w = u "." \/ w = u "..".
Definition dotless (path : pystr) : Prop := forall w, In w (segments path) -> ~ dot_segment w.

(** Removing dot segments, as rewriting: a [.] goes; a segment followed by [..]
    goes with it; a [..] with nothing before it goes. *)
Inductive cancels : list pystr -> list pystr -> Prop :=
| cancel_dot a b : cancels (a ++ u "." :: b) (a ++ b)
| cancel_up a w b : ~ dot_segment w -> cancels (a ++ w :: u ".." :: b) (a ++ b)
| cancel_root b : cancels (u ".." :: b) b.
Inductive cancels_to : list pystr -> list pystr -> Prop :=
| cancels_none l : cancels_to l l
| cancels_some l m n : cancels l m -> cancels_to m n -> cancels_to l n.
(** [p'] is [p] without dot segments: cancellation, then a leading slash is kept
    and a final dot segment leaves a slash behind *)
Definition dots_removed (p p' : pystr) : Prop :=
  exists l, cancels_to (segments p) l /\ (forall w, In w l -> ~ dot_segment w) /\
    let l1 := if startswith (u "/") p && match l with [] :: _ => false | _ => true end then [] :: l else l in
    let l2 := if startswith (rev (u "/.")) (rev p) || startswith (rev (u "/..")) (rev p) then l1 ++ [[]] else l1 in
    p' = join (u "/") l2.

(** A percent escape with a lower-case hex digit *)
Definition lower_hex (c : N) : Prop := 97 <= c <= 102.
Definition hex_digit (c : N) : Prop := 48 <= c <= 57 \/ 65 <= c <= 70 \/ lower_hex c.
Definition escapes_upper (s : pystr) : Prop :=
  forall a c d b, s = a ++ 37 :: c :: d :: b -> hex_digit c -> hex_digit d -> ~ lower_hex c /\ ~ lower_hex d.

(** Percent escapes in upper case, everything else as it was *)
Definition raised (c : N) : N := if (97 <=? c) && (c <=? 102) then c - 32 else c.
Inductive escapes_raised : pystr -> pystr -> Prop :=
| raised_nil : escapes_raised [] []
| raised_escape c d s t : hex_digit c -> hex_digit d -> escapes_raised s t ->
    escapes_raised (37 :: c :: d :: s) (37 :: raised c :: raised d :: t)
| raised_other c s t : ~ (c = 37 /\ exists a b r, s = a :: b :: r /\ hex_digit a /\ hex_digit b) -> escapes_raised s t ->
    escapes_raised (c :: s) (c :: t).
Definition normal_path (p p' : pystr) : Prop := exists q, escapes_raised p q /\ dots_removed q p'.

(** ** The parts of a URI text (RFC 3986, section 5.3 and appendix B) *)
Definition letter (c : N) : Prop := 65 <= c <= 90 \/ 97 <= c <= 122.
Definition scheme_text (s : pystr) : Prop :=
  exists c w, s = c :: w /\ letter c /\ Forall (fun x => letter x \/ 48 <= x <= 57 \/ x = 43 \/ x = 45 \/ x = 46) w.
Definition lacks (l : pystr) (s : pystr) : Prop := forall c, In c s -> ~ In c l.
Definition compose (scheme authority : option pystr) (path : pystr) (query fragment : option pystr) : pystr :=
  (match scheme with Some s => s ++ u ":" | None => [] end) ++
  (match authority with Some a => u "//" ++ a | None => [] end) ++
  path ++
  (match query with Some q => u "?" ++ q | None => [] end) ++
  (match fragment with Some f => u "#" ++ f | None => [] end).
Definition proper (scheme authority : option pystr) (path : pystr) (query fragment : option pystr) : Prop :=
  (forall s, scheme = Some s -> scheme_text s) /\
  (forall a, authority = Some a -> lacks [47; 92; 63; 35] a /\ (path = [] \/ exists r, path = 47 :: r \/ path = 92 :: r)) /\
  (authority = None -> forall r, path <> u "//" ++ r) /\
  (scheme = None -> authority = None -> forall w r, path = w ++ u ":" ++ r -> ~ scheme_text w) /\
  lacks (u "?#") path /\
  (forall q, query = Some q -> lacks (u "#") q) /\
  (forall f, fragment = Some f -> lacks [10] f).
