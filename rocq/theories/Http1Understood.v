(* Clients of the parser understand streams as the readers of Http1Reader.v
   do. *)

From Coq Require Import NArith List Bool Arith String Lia.
From Verif Require Import Bytes ByteStream Http1Model Http1Base Http1Wp Http1Term Http1Spec Http1Sem
  Http1Sim Http1Step Http1Misc Http1Run Http1Client Http1Api Http1Protocol Http1Data Http1Wire
  Http1Round Http1Round2 Http1Accept Http1Parse Http1Parse2 Http1Parse4 Http1Reader Http1Reads Http1Reads2 Http1Reads3.
Import ListNotations.
Local Open Scope N_scope.

Lemma understood_feed h clen p segs r :
  (forall l, h_clen h l = clen (flat l)) ->
  rinv2 p (hd [] segs) (List.concat (tl segs)) -> segs <> [] -> state_fn p <> StDetect1 -> state p = state_fn p ->
  shows (rsem clen p [] (List.concat segs)) r ->
  understood same_kind r (feed h p segs).
Proof.
  intros Hc I NE D St S. destruct (feed h p segs) as [[[p' log] rest] o] eqn:F.
  assert (EN : o <> OFuel).
  { pose proof (feed_ends h p segs (ri2_state _ _ _ I)) as E. rewrite F in E. exact E. }
  unfold feed in F.
  destruct (client_sim h clen Hc _ _ _ _ _ _ _ _ I (or_intror NE) (fun X => match D X with end) F) as [P Q]. specialize (Q St).
  destruct r as [L v]. unfold shows in S. unfold understood. cbn [fst snd] in *.
  destruct o as [| |e|f|]; cbn [client_post flat flat_map] in P; [| | | |congruence].
  - destruct P as (P & -> & W & _). destruct v as [y|at_|e|].
    + destruct S as (a & S & Fi). rewrite S in P. injection P as -> -> ->. rewrite alpha_st in Fi. rewrite Fi in W. discriminate W.
    + destruct S as (a & S & _ & A). rewrite S in P. injection P as -> ->. rewrite alpha_st in A. rewrite Q. auto.
    + destruct S as [? S]. congruence.
    + congruence.
  - destruct P as (P & W). destruct v as [y| |e|].
    + destruct S as (a & S & Fi). rewrite S in P. injection P as -> _ ->. rewrite Q. auto.
    + destruct S as (a & S & Fi & _). rewrite S in P. injection P as -> -> _. rewrite alpha_st, W in Fi. discriminate Fi.
    + destruct S as [? S]. congruence.
    + congruence.
  - destruct P as (L' & e' & R & P & K & Y). destruct v as [y| |e0|].
    + destruct S as (a & S & _). congruence.
    + destruct S as (a & S & _). congruence.
    + destruct S as [y S]. rewrite S in P. injection P as -> -> _. repeat split; eauto. exact (client_dead _ _ _ _ _ _ _ _ _ (ri2_state _ _ _ I) F).
    + congruence.
  - destruct P as (L' & P & Y). destruct v as [y| |e0|].
    + destruct S as (a & S & _). congruence.
    + destruct S as (a & S & _). congruence.
    + destruct S as [? S]. congruence.
    + rewrite S in P. injection P as ->. eauto.
Qed.

Lemma understood_exactly h p segs r :
  vstate (parser_type p) (state_fn p) = true -> parser_type p <> Multipart ->
  understood same_kind r (feed h p segs) -> understood eq r (feed h p segs).
Proof.
  intros V T U. destruct (feed h p segs) as [[[p' log] rest] o] eqn:F. destruct r as [L v].
  unfold understood in *. cbn [fst snd] in *. destruct v; try exact U.
  destruct U as ((e' & -> & K) & Y). split; [|exact Y]. exists e'. split; [reflexivity|].
  pose proof (client_error _ _ _ _ _ _ _ _ _ V T F) as M.
  destruct e'; try exact K. contradiction.
Qed.

Lemma head_understood h q segs : segs <> [] ->
  hok (strip (List.concat segs)) = true \/ (9 <= List.length (strip (hd [] segs)))%nat ->
  understood eq (read_head (List.concat segs)) (feed h (init_head q) segs).
Proof.
  intros NE Hh. apply understood_exactly; [reflexivity|discriminate|].
  unfold feed. rewrite (client_no_clen h) by (reflexivity || discriminate).
  apply (understood_feed (no_clen h) (fun _ => None)); try reflexivity; try assumption; try discriminate.
  - constructor; try reflexivity; try discriminate.
    destruct Hh as [Hh|Hh]; [left|right; left; split; [reflexivity|assumption]].
    rewrite <- concat_hd. exact Hh.
  - exact (reads_message None (fun _ => None) (List.concat segs)).
Qed.

Lemma chunked_understood h q segs : segs <> [] ->
  understood eq (read_chunked (List.concat segs)) (feed h (init_chunked q) segs).
Proof.
  intros NE. apply understood_exactly; [reflexivity|discriminate|].
  unfold feed. rewrite (client_no_clen h) by (reflexivity || discriminate).
  apply (understood_feed (no_clen h) (fun _ => None)); try reflexivity; try assumption; try discriminate.
  - constructor; try reflexivity; try discriminate. left; reflexivity.
  - exact (reads_chunked None (fun _ => None) _ [] (List.concat segs) (le_n _)).
Qed.

Lemma multipart_understood h clen q bd segs : segs <> [] ->
  (forall l, h_clen h l = clen (flat l)) ->
  ~ In 13 bd -> N.of_nat (List.length bd) <= 2 ^ 14 ->
  understood same_kind (read_multipart bd clen (List.concat segs)) (feed h (set_boundary (init_multipart q) bd) segs).
Proof.
  intros NE Hc C Len.
  apply (understood_feed h clen); try reflexivity; try assumption; try discriminate.
  - constructor; try reflexivity; try discriminate; [left; reflexivity|]. intros _. now split.
  - exact (reads_multipart bd clen _ [] (List.concat segs) (le_n _)).
Qed.

Lemma url_shows q n s :
  shows (rsem (fun _ => None) (set_length (init_url_encoded q) n) [] s) (read_url_encoded n s).
Proof.
  set (k := N.to_nat n).
  assert (US : rsem (fun _ => None) (set_length (init_url_encoded q) n) [] s =
    match aexec UrlEncoded None (fun _ => None) (A StFirstUrlEncodedName 0 0 0) [] (firstn k s) with
    | ADone l1 a1 rest =>
      match a_st a1 with
      | StFinished => ADone l1 a1 (rest ++ skipn k s)
      | _ => if (k <=? List.length s)%nat
             then ADone (l1 ++ [FEv EBodyFinished]) (A StFinished 0 0 0) (skipn k s)
             else ADone l1 a1 []
      end
    | AFail l1 e rest => AFail l1 e (rest ++ skipn k s)
    | AFlt l1 => AFlt l1
    end) by reflexivity.
  rewrite US. clear US.
  pose proof (reads_pairs (fun _ => None) _ [] (firstn k s) (le_n _)) as R.
  unfold read_url_encoded. fold k. unfold shows in R.
  destruct (pairs [] (firstn k s)) as [l [y| |e|]] eqn:X; cbn [fst snd] in R.
  + destruct R as (a & R & Fi). pose proof R as R'.
    destruct (url_lasts _ _ (A StFirstUrlEncodedName 0 0 0) _ _ _ _ eq_refl R') as [_ S]. rewrite Fi in S. discriminate S.
  + destruct R as (a & R & W & At). rewrite R.
    replace (n <=? N.of_nat (List.length s)) with (k <=? List.length s)%nat
      by (unfold k; destruct (Nat.leb_spec (N.to_nat n) (List.length s)), (N.leb_spec n (N.of_nat (List.length s))); lia).
    assert (Z : forall X Y : aout, match a_st a with StFinished => X | _ => Y end = Y) by (destruct (a_st a); (discriminate W || reflexivity)).
    rewrite Z. clear Z. destruct (k <=? List.length s)%nat; unfold shows; cbn [fst snd]; eauto.
  + destruct R as [y R]. rewrite R. eexists. reflexivity.
  + rewrite R. reflexivity.
Qed.

Lemma url_understood h q n segs : segs <> [] ->
  understood eq (read_url_encoded n (List.concat segs)) (feed h (set_length (init_url_encoded q) n) segs).
Proof.
  intros NE. apply understood_exactly; [reflexivity|discriminate|].
  unfold feed. rewrite (client_no_clen h) by (reflexivity || discriminate).
  apply (understood_feed (no_clen h) (fun _ => None)); try reflexivity; try assumption; try discriminate.
  - constructor; try reflexivity; try discriminate. left; reflexivity.
  - apply url_shows.
Qed.
