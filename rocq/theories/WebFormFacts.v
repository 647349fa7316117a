(* Proofs about the programs that receive URL-encoded forms. *)

From Coq Require Import NArith List Bool Arith String Lia.
From Verif Require Import Bytes Http1Model Http1Spec Http1Wire Http1Reader Http1Cuts Http1Round Http1Round2 Http1Program
  Http1Understood Http1ProgramFacts UtilModel UtilSpec UtilIter FormSpec FormFacts WebFormSpec.
Import ListNotations.
Local Open Scope N_scope.
Local Open Scope list_scope.

(* ------------------------------------------------------------------ *)
(* What is written                                                      *)
(* ------------------------------------------------------------------ *)

Lemma itself_range b : itself b = true ->
  33 <= b <= 126 /\ ~ In b (bs "%+=&;") /\ b <> 32 /\ b <> 63.
Proof.
  unfold itself. rewrite !orb_true_iff, !andb_true_iff, !N.leb_le, !N.eqb_eq.
  intros H. cbn [bs list_ascii_of_string In]. cbn. unfold byte in *. lia.
Qed.

Lemma hex_digit_ok n : n < 16 -> hexdigit (hex_digit n) /\ hexval (hex_digit n) = n.
Proof.
  intros H. unfold hex_digit, hexdigit, hexval, byte. destruct (N.ltb_spec n 10).
  - split; [lia|]. destruct (N.leb_spec (48 + n) 57); lia.
  - split; [lia|]. destruct (N.leb_spec (55 + n) 57), (N.leb_spec (55 + n) 70); lia.
Qed.

Lemma hex_digit_value n : n < 16 -> HexDigit (hex_digit n) n.
Proof.
  intros H. right.
  assert (C : forall m : nat, (m < 16)%nat ->
    nth_error (bs "0123456789ABCDEF") m = Some (hex_digit (N.of_nat m))).
  { intros m L. do 16 (destruct m as [|m]; [reflexivity|]). lia. }
  rewrite C by lia. now rewrite N2Nat.id.
Qed.

Lemma halves b : b < 256 -> b / 16 < 16 /\ b mod 16 < 16 /\ 16 * (b / 16) + b mod 16 = b.
Proof.
  intros H. split; [apply N.div_lt_upper_bound; lia|]. split; [apply N.mod_lt; lia|].
  symmetry. apply N.div_mod. lia.
Qed.

Lemma text_encodes t : Forall (fun b : byte => b < 256) t -> encodes t (url_text t).
Proof.
  induction 1 as [|b t B _ IH]; [constructor|]. cbn [url_text flat_map]. unfold url_byte at 1.
  destruct (b =? 32) eqn:E1; [apply N.eqb_eq in E1; subst b; now constructor|].
  destruct (itself b) eqn:E2.
  - apply itself_range in E2. destruct E2 as (R & I & _). constructor; [|assumption|assumption].
    unfold visible_byte. apply andb_true_iff. rewrite !N.leb_le. exact R.
  - destruct (halves b B) as (H1 & H2 & H3).
    apply hex_digit_ok in H1, H2. destruct H1 as [H1 V1], H2 as [H2 V2]. cbn [app].
    replace b with (16 * hexval (hex_digit (b / 16)) + hexval (hex_digit (b mod 16))) at 1 by (rewrite V1, V2; exact H3).
    now constructor.
Qed.

Definition both (x : pair) : url_pair := (fst x, Some (snd x)).
Definition octet_pair (x : pair) : Prop := Forall (fun b : byte => b < 256) (fst x) /\ Forall (fun b : byte => b < 256) (snd x).

Lemma form_wire xs : Forall octet_pair xs -> body_wire (map both xs) (form_text xs).
Proof.
  induction 1 as [|x xs [N V] F IH]; [constructor|]. cbn [map].
  assert (P : pair_wire (both x) (pair_text x)) by (constructor; now apply text_encodes).
  destruct xs as [|y xs]; [now constructor|].
  change (form_text (x :: y :: xs)) with (pair_text x ++ [38] ++ form_text (y :: xs)).
  apply body_cons; [assumption|now left|discriminate|assumption].
Qed.

(* ------------------------------------------------------------------ *)
(* What is collected                                                    *)
(* ------------------------------------------------------------------ *)

Lemma note_nothing l : ~ In (FEv EUrlBegin) l -> fold_left note_pair l [] = [].
Proof.
  induction l as [|e l IH]; intros H; [reflexivity|]. cbn [fold_left].
  replace (note_pair [] e) with (@nil pair); [apply IH; intros I; apply H; now right|].
  destruct e as [k b|e]; [now destruct k|]. destruct e; try reflexivity. destruct H. now left.
Qed.

Lemma no_begin_bytes k l : ~ In (FEv EUrlBegin) (map (FByte k) l).
Proof. intros I. apply in_map_iff in I. now destruct I as (b & E & _). Qed.

Lemma no_begin_request req : ~ In (FEv EUrlBegin) (seen_request req).
Proof.
  unfold seen_request, seen_headers. intros I.
  apply in_app_or in I. destruct I as [I|I]; [now apply no_begin_bytes in I|].
  apply in_app_or in I. destruct I as [I|I]; [now apply no_begin_bytes in I|].
  cbn [app] in I. destruct I as [I|[I|I]]; [unfold seen_version in I; now destruct (q_version req)|discriminate I|].
  apply in_app_or in I. destruct I as [I|[I|[]]]; [|discriminate I].
  apply in_flat_map in I. destruct I as (f & _ & I). unfold seen_header in I.
  apply in_app_or in I. destruct I as [I|I]; now apply no_begin_bytes in I.
Qed.

Lemma note_name ns : forall n v ps,
  fold_left note_pair (map (FByte KUrlName) ns) ((n, v) :: ps) = (n ++ ns, v) :: ps.
Proof.
  induction ns as [|b ns IH]; intros n v ps; cbn [map fold_left note_pair]; [now rewrite app_nil_r|].
  now rewrite IH, <- app_assoc.
Qed.
Lemma note_value vs : forall n v ps,
  fold_left note_pair (map (FByte KUrlValue) vs) ((n, v) :: ps) = (n, v ++ vs) :: ps.
Proof.
  induction vs as [|b vs IH]; intros n v ps; cbn [map fold_left note_pair]; [now rewrite app_nil_r|].
  now rewrite IH, <- app_assoc.
Qed.

Lemma note_pairs xs : forall ps,
  fold_left note_pair (flat_map seen_pair (map both xs)) ps = rev xs ++ ps.
Proof.
  induction xs as [|[n v] xs IH]; intros ps; [reflexivity|]. cbn [map flat_map rev]. rewrite fold_left_app.
  unfold seen_pair at 2. cbn [both fst snd app fold_left note_pair]. rewrite fold_left_app.
  rewrite note_name, note_value, IH. cbn [app]. now rewrite <- app_assoc.
Qed.

Lemma collected_pairs req xs : body_pairs (seen_request req ++ seen_pairs (map both xs)) = xs.
Proof.
  unfold body_pairs, seen_pairs. rewrite !fold_left_app, note_nothing by apply no_begin_request.
  rewrite note_pairs, app_nil_r. cbn [fold_left note_pair].
  rewrite rev_involutive. reflexivity.
Qed.

(* ------------------------------------------------------------------ *)
(* The body                                                             *)
(* ------------------------------------------------------------------ *)

Lemma post_boundaries : good_boundaries receive_post.
Proof.
  intros l bd. unfold receive_post. destruct (sections l) as [|s [|s2 r]]; try discriminate.
  destruct (lookup _ _) as [v|]; [|discriminate]. destruct (number v); discriminate.
Qed.
Lemma get_boundaries : good_boundaries receive_get.
Proof. intros l bd. unfold receive_get. destruct (sections l); discriminate. Qed.

Lemma read_pairs xs tail : Forall octet_pair xs ->
  read_url_encoded (N.of_nat (List.length (form_text xs))) (form_text xs ++ tail) =
  (seen_pairs (map both xs), Complete tail).
Proof.
  intros W.
  set (w := form_text xs ++ tail) in *.
  assert (E : List.concat [w] = w) by apply app_nil_r.
  destruct (url_round yes new (map both xs) (form_text xs) tail [w]) as (p' & log & F & L);
    [now apply form_wire|discriminate|exact E|].
  pose proof (url_understood yes new (N.of_nat (List.length (form_text xs))) [w]) as U. rewrite E, F in U.
  specialize (U ltac:(discriminate)). cbn [understood] in U.
  destruct (read_url_encoded _ w) as [x [y|a|e|]]; cbn [fst snd] in U.
  - destruct U as (_ & U1 & U2 & _). congruence.
  - destruct U as [U _]. discriminate U.
  - destruct U as [(e' & U & _) _]. discriminate U.
  - destruct U as [[x0 U] _]. discriminate U.
Qed.

Lemma number_digits ds : ds <> [] -> Forall Http1Wire.digit ds -> number ds = Some (decimal ds).
Proof.
  intros NE D. unfold number. destruct ds as [|d ds]; [congruence|].
  replace (forallb _ _) with true; [reflexivity|]. symmetry. apply forallb_forall. intros b I.
  rewrite Forall_forall in D. apply D in I. unfold Http1Wire.digit in I. apply andb_true_iff. rewrite !N.leb_le. exact I.
Qed.

Lemma next_is_pairs req ds : wf_request req -> field_says (q_headers req) "content-length" ds ->
  ds <> [] -> Forall Http1Wire.digit ds -> receive_post (seen_request req) = Some (AUrlEncoded (decimal ds)).
Proof.
  intros W S NE D. unfold receive_post. rewrite (sections_request req W). cbn [s_fields].
  unfold field_says in S. change (map entry (q_headers req)) with
    (map (fun f => (map lower_case (h_name f), full_value f)) (q_headers req)).
  rewrite S, (number_digits ds NE D). reflexivity.
Qed.

Lemma request_pieces req t segs : wf_request req -> List.concat segs = render_request req ++ t -> segs <> [].
Proof.
  intros (_ & M & _) E ->. cbn in E. unfold render_request in E.
  symmetry in E. apply app_eq_nil in E. destruct E as [E _]. apply app_eq_nil in E. destruct E as [_ E].
  apply app_eq_nil in E. now destruct E.
Qed.

Lemma post_received h clen p req ds xs tail segs :
  (forall l, h_clen h l = clen (flat l)) ->
  wf_request req -> hd 0 (q_method req) <> 72 ->
  field_says (q_headers req) "content-length" ds -> ds <> [] -> Forall Http1Wire.digit ds ->
  decimal ds = N.of_nat (List.length (form_text xs)) ->
  Forall (fun x => Forall (fun b : byte => b < 256) (fst x) /\ Forall (fun b : byte => b < 256) (snd x)) xs ->
  List.concat segs = render_request req ++ form_text xs ++ tail ->
  exists p' log segs', work 2 h receive_post p [] segs = (p', log, segs', OFinished) /\
    List.concat segs' = tail /\ body_pairs (flat log) = xs.
Proof.
  intros Hc W H S D1 D2 D3 O E. pose proof (request_pieces _ _ _ W E) as NE.
  destruct (read_request req (form_text xs ++ tail) W H) as [R K]. rewrite <- E in R, K.
  pose proof (read_pairs xs tail O) as R2. rewrite <- D3 in R2.
  pose proof (next_is_pairs req ds W S D1 D2) as N2.
  assert (RS : read_stream 2 clen receive_post [] (List.concat segs) =
               (seen_request req ++ seen_pairs (map both xs), Complete tail)).
  { cbn [read_stream]. change (receive_post []) with (Some AHead). cbv iota beta. rewrite R. cbn [app].
    rewrite N2. cbv iota beta. rewrite R2. reflexivity. }
  assert (PH : plain_heads 2 clen receive_post [] (List.concat segs)).
  { cbn [plain_heads]. change (receive_post []) with (Some AHead). cbv iota beta. split; [intros _; exact K|].
    rewrite R. cbn [app]. rewrite N2. split; [discriminate|]. rewrite R2. exact I. }
  pose proof (program_stream h clen receive_post 2 p segs Hc post_boundaries NE PH) as G.
  rewrite RS in G. destruct (work 2 h receive_post p [] segs) as [[[p' log] segs'] o].
  cbn [goes fst snd] in G. destruct G as (-> & G1 & G2).
  exists p', log, segs'. split; [reflexivity|]. split; [exact G2|].
  rewrite G1. apply collected_pairs.
Qed.

(* ------------------------------------------------------------------ *)
(* The URL                                                              *)
(* ------------------------------------------------------------------ *)

Lemma url_of_bytes k l : k <> KUrl -> url_of (map (FByte k) l) = [].
Proof.
  intros K. unfold url_of. induction l as [|b l IH]; [reflexivity|]. cbn [map flat_map]. rewrite IH.
  now destruct k.
Qed.

Lemma url_of_request req : url_of (seen_request req) = q_url req.
Proof.
  assert (A : forall l m, url_of (l ++ m) = url_of l ++ url_of m) by (intros; apply flat_map_app).
  unfold seen_request, seen_headers. rewrite !A, url_of_bytes by discriminate. cbn [app].
  assert (U : forall u, url_of (map (FByte KUrl) u) = u).
  { induction u as [|b u IH]; [reflexivity|]. cbn [map]. unfold url_of in *. cbn [flat_map app]. now rewrite IH. }
  rewrite U. rewrite <- (app_nil_r (q_url req)) at 2. f_equal.
  assert (V : url_of [seen_version (q_version req); FEv EInitialFinished] = []).
  { unfold seen_version. now destruct (q_version req). }
  rewrite V. cbn [app].
  induction (q_headers req) as [|f fs IH]; [reflexivity|]. cbn [flat_map]. rewrite A, <- app_assoc, IH.
  rewrite app_nil_r. unfold seen_header. rewrite A, !url_of_bytes by discriminate. reflexivity.
Qed.

Lemma query_behind path t : ~ In 63 path -> query_of (path ++ 63 :: t) = t.
Proof.
  induction path as [|b path IH]; intros N; cbn [app query_of]; [reflexivity|].
  replace (b =? 63) with false; [apply IH; intros I; apply N; now right|].
  symmetry. apply N.eqb_neq. intros ->. apply N. now left.
Qed.

Lemma value_text t : Forall (fun b : byte => b < 256) t -> QValue (url_text t) t.
Proof.
  induction 1 as [|b t B _ IH]; [constructor|]. cbn [url_text flat_map]. unfold url_byte at 1.
  destruct (b =? 32) eqn:E1; [apply N.eqb_eq in E1; subst b; now constructor|].
  destruct (itself b) eqn:E2.
  - apply itself_range in E2. destruct E2 as (R & I & _). constructor; [exact R| |exact IH].
    intros J. apply I. cbn in *. tauto.
  - destruct (halves b B) as (H1 & H2 & H3). cbn [app].
    assert (Q : QValue (37 :: hex_digit (b / 16) :: hex_digit (b mod 16) :: url_text t) (16 * (b / 16) + b mod 16 :: t))
      by (constructor; [now apply hex_digit_value|now apply hex_digit_value|exact IH]).
    rewrite H3 in Q. exact Q.
Qed.

(* A name is written without escapes, or with one behind a part without. *)
Lemma name_text t : Forall (fun b : byte => b < 256) t ->
  if forallb plain_byte t then QName (url_text t) t
  else exists u n x y vx vy r, url_text t = u ++ 37 :: x :: y :: r /\ QName u n /\ HexDigit x vx /\ HexDigit y vy.
Proof.
  induction 1 as [|b t B _ IH]; [constructor|]. cbn [url_text flat_map forallb].
  change (flat_map url_byte t) with (url_text t). unfold url_byte, plain_byte at 1.
  destruct (b =? 32) eqn:E1; cbn [orb andb].
  { apply N.eqb_eq in E1. subst b. destruct (forallb plain_byte t); [now constructor|].
    destruct IH as (u & n & x & y & vx & vy & r & -> & Q & X & Y).
    exists (43 :: u), (32 :: n), x, y, vx, vy, r. repeat split; try assumption. now constructor. }
  destruct (itself b) eqn:E2; cbn [orb andb].
  { apply itself_range in E2. destruct E2 as (R & I & _). destruct (forallb plain_byte t); [now constructor|].
    destruct IH as (u & n & x & y & vx & vy & r & -> & Q & X & Y).
    exists (b :: u), (b :: n), x, y, vx, vy, r. repeat split; try assumption. now constructor. }
  destruct (halves b B) as (H1 & H2 & _).
  exists [], [], (hex_digit (b / 16)), (hex_digit (b mod 16)), (b / 16), (b mod 16), (url_text t).
  split; [reflexivity|]. split; [constructor|]. split; now apply hex_digit_value.
Qed.

Lemma url_text_nil t : url_text t = [] -> t = [].
Proof.
  destruct t as [|b t]; [reflexivity|]. cbn [url_text flat_map]. unfold url_byte.
  destruct (b =? 32); [discriminate|]. destruct (itself b); discriminate.
Qed.

Definition items (xs : list pair) : list item := map (fun x => (fst x, Some (snd x))) xs.

Lemma form_runs xs : forall first, Forall octet_pair xs ->
  (first = true -> match xs with x :: _ => fst x <> [] | [] => True end) ->
  exists e, Runs QueryStep first (form_text xs) (items (before_escape xs)) e NNone.
Proof.
  induction xs as [|x xs IH]; intros first O F.
  { exists []. apply (runs_stop QueryStep first [] NNone [] []); [constructor|now left]. }
  inversion O as [|? ? [O1 O2] O3]; subst. pose proof (name_text (fst x) O1) as N. pose proof (value_text (snd x) O2) as V.
  cbn [before_escape]. unfold plain.
  destruct (forallb plain_byte (fst x)).
  - assert (T : first = true -> url_text (fst x) <> []).
    { intros F1 U. apply url_text_nil in U. now apply (F F1). }
    destruct (IH false O3 ltac:(discriminate)) as [e R]. exists ([] ++ e). cbn [items map].
    change (map (fun x0 => (fst x0, Some (snd x0))) (before_escape xs)) with (items (before_escape xs)).
    destruct xs as [|y xs].
    + cbn [form_text]. unfold pair_text. cbn [app].
      apply (runs_item QueryStep first _ (fst x) (Some (snd x)) [] []); [|exact R].
      now apply qs_value_end.
    + change (form_text (x :: y :: xs)) with (pair_text x ++ [38] ++ form_text (y :: xs)).
      unfold pair_text. rewrite <- !app_assoc. cbn [app].
      apply (runs_item QueryStep first _ (fst x) (Some (snd x)) [] (form_text (y :: xs))); [|exact R].
      apply qs_value_sep; [assumption|assumption|now left|assumption].
  - destruct N as (u & n & a & b & va & vb & r & E & Q & A & B).
    exists [EName b]. cbn [items map].
    assert (T : exists r', form_text (x :: xs) = u ++ 37 :: a :: b :: r').
    { destruct xs as [|y xs].
      - exists (r ++ [61] ++ url_text (snd x)). cbn [form_text]. unfold pair_text. now rewrite E, <- !app_assoc.
      - exists (r ++ [61] ++ url_text (snd x) ++ [38] ++ form_text (y :: xs)).
        change (form_text (x :: y :: xs)) with (pair_text x ++ [38] ++ form_text (y :: xs)).
        unfold pair_text. now rewrite E, <- !app_assoc. }
    destruct T as [r' ->].
    apply (runs_stop QueryStep first _ NNone [EName b] []); [|now left]. now apply (qs_name_hex first u n a b va vb r').
Qed.

Lemma form_query xs : Forall octet_pair xs -> exists e, query_all (form_text xs) = (items (query_gives xs), e, NNone).
Proof.
  intros O.
  assert (C : (exists v xs', xs = ([], v) :: xs') \/
              match xs with x :: _ => fst x <> [] | [] => True end /\ query_gives xs = before_escape xs).
  { destruct xs as [|[[|b n] v] xs]; [right; now split|left; eauto|right; split; [discriminate|reflexivity]]. }
  destruct C as [(v & xs' & ->)|[C ->]].
  - exists [EName 61]. apply query_all_runs. cbn [query_gives items map].
    assert (T : exists r, form_text (([], v) :: xs') = 61 :: r) by (destruct xs'; cbn; eauto).
    destruct T as [r ->].
    apply (runs_stop QueryStep true _ NNone [EName 61] []); [|now left]. apply qs_bad_start; [reflexivity|now left].
  - destruct (form_runs xs true O (fun _ => C)) as [e R]. exists e. now apply query_all_runs.
Qed.

Lemma get_received h clen p req path xs tail segs :
  (forall l, h_clen h l = clen (flat l)) ->
  wf_request req -> hd 0 (q_method req) <> 72 ->
  q_url req = path ++ [63] ++ form_text xs -> ~ In 63 path ->
  Forall (fun x => Forall (fun b : byte => b < 256) (fst x) /\ Forall (fun b : byte => b < 256) (snd x)) xs ->
  List.concat segs = render_request req ++ tail ->
  exists p' log segs', work 2 h receive_get p [] segs = (p', log, segs', OFinished) /\
    List.concat segs' = tail /\ url_pairs (flat log) = query_gives xs.
Proof.
  intros Hc W H Q P O E. pose proof (request_pieces _ _ _ W E) as NE.
  destruct (read_request req tail W H) as [R K]. rewrite <- E in R, K.
  assert (N2 : receive_get (seen_request req) = None).
  { unfold receive_get. now rewrite (sections_request req W). }
  assert (RS : read_stream 2 clen receive_get [] (List.concat segs) = (seen_request req, Complete tail)).
  { cbn [read_stream]. change (receive_get []) with (Some AHead). cbv iota beta. rewrite R. cbn [app].
    now rewrite N2. }
  assert (PH : plain_heads 2 clen receive_get [] (List.concat segs)).
  { cbn [plain_heads]. change (receive_get []) with (Some AHead). cbv iota beta. split; [intros _; exact K|].
    rewrite R. cbn [app]. rewrite N2. exact I. }
  pose proof (program_stream h clen receive_get 2 p segs Hc get_boundaries NE PH) as G.
  rewrite RS in G. destruct (work 2 h receive_get p [] segs) as [[[p' log] segs'] o].
  cbn [goes fst snd] in G. destruct G as (-> & G1 & G2).
  exists p', log, segs'. split; [reflexivity|]. split; [exact G2|].
  rewrite G1. unfold url_pairs. rewrite url_of_request, Q. cbn [app]. rewrite query_behind by exact P.
  destruct (form_query xs O) as [e ->]. unfold items. rewrite map_map. cbn [fst snd].
  clear. induction (query_gives xs) as [|[n v] l IH]; [reflexivity|]. cbn [map fst snd]. now rewrite IH.
Qed.

(* Nothing is missing if no name needs an escape and the first one is not empty. *)
Lemma plain_all xs : Forall (fun x => plain x = true) xs ->
  match xs with x :: _ => fst x <> [] | [] => True end -> query_gives xs = xs.
Proof.
  intros F S.
  assert (B : before_escape xs = xs).
  { induction F as [|x xs P F IH]; [reflexivity|]. cbn [before_escape]. rewrite P. f_equal.
    clear - F. induction F as [|x xs P F IH]; [reflexivity|]. cbn [before_escape]. now rewrite P, IH. }
  destruct xs as [|[[|b n] v] xs]; [reflexivity|now destruct S|exact B].
Qed.
