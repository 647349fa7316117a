(* Where errors in a head are noticed and what they lose, for a parser that has
   never been used. *)

From Coq Require Import NArith List Bool Arith String Lia.
From Verif Require Import Bytes ByteStream Http1Model Http1Spec Http1Protocol Http1Wire Http1Reader Http1Cuts
  Http1CutsFacts Http1Place Http1Lost Http1LostFacts Http1CutErrors Http1New.
Import ListNotations.
Local Open Scope N_scope.

Definition space (b : byte) : bool := (b =? 13) || (b =? 10) || (b =? 9) || (b =? 32).

Lemma space_in b : space b = false -> ~ In b [13; 10; 9; 32].
Proof.
  unfold space. rewrite !orb_false_iff, !N.eqb_neq. intros [[[A B] C] D] [E|[E|[E|[E|[]]]]]; congruence.
Qed.

Lemma new_feed h (b : byte) s more : space b = false ->
  feed h new ((b :: s) :: more) = feed h (init_head new) ((b :: s) :: more).
Proof.
  intros W. unfold feed. assert (Ca : exists k, calls ((b :: s) :: more) = S k).
  { cbn [calls]. eexists. reflexivity. }
  destruct Ca as [k ->]. cbn [client]. now rewrite (init_resume h b s [] (space_in b W)).
Qed.

(* White space is refused at once. *)
Lemma new_space h (b : byte) s log : space b = true ->
  exists p, resume h new log (b :: s) = (p, log, RErr (ErMethod b)) /\ byte_count p = 1.
Proof.
  intros W. unfold space in W. rewrite !orb_true_iff, !N.eqb_eq in W.
  assert (E : b = 13 \/ b = 10 \/ b = 9 \/ b = 32) by tauto. clear W.
  destruct s as [|x1 s]; [|destruct s as [|x2 s]; [|destruct s as [|x3 s]; [|destruct s as [|x4 s]; [|
  destruct s as [|x5 s]; [|destruct s as [|x6 s]; [|destruct s as [|x7 s]; [|destruct s as [|x8 s]]]]]]]].
  all: destruct E as [->|[->|[->| ->]]]; eexists; split; reflexivity.
Qed.

Lemma strip_self b s : space b = false -> strip (b :: s) = b :: s.
Proof. unfold space. intros W. cbn [strip]. now rewrite W. Qed.

Lemma new_error_piece h segs p' log rest e : feed h new segs = (p', log, rest, OError e) ->
  exists b s more, segs = (b :: s) :: more.
Proof.
  destruct segs as [|[|b s] more]; intros F; [discriminate F|discriminate F|eauto].
Qed.

Lemma new_space_feed h (b : byte) s more p' log rest e : space b = true ->
  feed h new ((b :: s) :: more) = (p', log, rest, OError e) -> log = [] /\ e = ErMethod b /\ byte_count p' = 1.
Proof.
  intros W F. unfold feed in F. assert (Ca : exists k, calls ((b :: s) :: more) = S k).
  { cbn [calls]. eexists. reflexivity. }
  destruct Ca as [k Ca]. rewrite Ca in F. cbn [client] in F.
  destruct (new_space h b s [] W) as (p & E & C). rewrite E in F. now injection F as <- <- _ <-.
Qed.

Lemma space_cases b : space b = true -> b = 13 \/ b = 10 \/ b = 9 \/ b = 32.
Proof. unfold space. rewrite !orb_true_iff, !N.eqb_eq. tauto. Qed.

Lemma new_head_place h segs p' log rest e :
  feed h new segs = (p', log, rest, OError e) ->
  let enough := (9 <=? List.length (hd [] segs))%nat in
  exists x b y, List.concat segs = x ++ b :: y /\
    byte_count p' = N.of_nat (S (List.length x)) /\
    (exists at_, snd (head_from enough x) = Partial at_) /\
    snd (head_from enough (x ++ [b])) = Wrong e.
Proof.
  intros F. cbv zeta. destruct (new_error_piece _ _ _ _ _ _ F) as (b & s & more & ->).
  destruct (space b) eqn:W.
  - destruct (new_space_feed _ _ _ _ _ _ _ _ W F) as (-> & -> & C).
    exists [], b, (s ++ List.concat more). split; [reflexivity|]. split; [exact C|]. split; [eexists; reflexivity|].
    destruct (space_cases b W) as [->|[->|[->| ->]]]; destruct (9 <=? _)%nat; reflexivity.
  - rewrite new_feed in F by exact W.
    pose proof (cut_head_place _ _ _ _ _ _ _ (@not_eq_sym _ _ _ (@nil_cons _ _ _)) F) as P. cbv zeta in P.
    destruct P as (x & c & y & E1 & E2 & E3 & E4). exists x, c, y. split; [exact E1|]. split; [exact E2|].
    cbn [first_part] in E3, E4. rewrite (strip_self b s W) in E3, E4. cbn [hd].
    cbn [List.concat app] in E1. destruct x as [|c0 x].
    + cbn [app] in *. injection E1 as <- _. rewrite (strip_self b [] W) in E4. now split.
    + cbn [app] in *. injection E1 as <- _. rewrite (strip_self b _ W) in E3. rewrite (strip_self b _ W) in E4. now split.
Qed.

Lemma new_head_lost h segs p' log rest e :
  feed h new segs = (p', log, rest, OError e) ->
  loses e (fst (read_new_head segs)) 0 segs p' log.
Proof.
  intros F. destruct (new_error_piece _ _ _ _ _ _ F) as (b & s & more & ->).
  destruct (space b) eqn:W.
  - destruct (new_space_feed _ _ _ _ _ _ _ _ W F) as (-> & -> & C).
    exists KMethod, []. split; [|now left]. unfold read_new_head. cbn [hd].
    destruct (space_cases b W) as [->|[->|[->| ->]]]; destruct (9 <=? _)%nat; reflexivity.
  - rewrite new_feed in F by exact W.
    pose proof (cut_head_lost _ _ _ _ _ _ _ (@not_eq_sym _ _ _ (@nil_cons _ _ _)) F) as P.
    unfold read_cut_head in P. cbn [first_part List.concat app] in P. rewrite !(strip_self b _ W) in P. exact P.
Qed.

Lemma new_head_bytewise h s p' log rest e :
  feed h new (bytewise s) = (p', log, rest, OError e) -> flat log = fst (head_from false s).
Proof.
  intros F. pose proof (bytewise_loses _ _ _ _ _ _ (new_head_lost _ _ _ _ _ _ F)) as P.
  destruct s as [|b s]; [discriminate F|]. rewrite P. unfold read_new_head, bytewise. cbn [map hd].
  change ([b] :: map (fun b0 => [b0]) s) with (bytewise (b :: s)). now rewrite bytewise_concat.
Qed.
