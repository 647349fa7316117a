(* White space behind the value of a chunk extension is reported with it. *)

From Coq Require Import NArith List Bool Arith String Lia.
From Verif Require Import Bytes Http1Model Http1Spec Http1Protocol Http1Wire Http1Round2.
Import ListNotations.
Local Open Scope N_scope.
Local Open Scope list_scope.

Lemma spaces_ok sp : padding sp ->
  field_text_ok Plain sp = true /\ no_bare_semicolon Plain sp = true /\ unquoted Plain sp = sp.
Proof.
  induction sp as [|b sp IH]; intros P; [auto|]. inversion P as [|? ? P1 P2]; subst.
  destruct (IH P2) as (A & B & C). destruct P1 as [-> | ->]; cbn; rewrite A, B, C; auto.
Qed.

Lemma value_then sp : padding sp -> forall v m, field_text_ok m v = true -> no_bare_semicolon m v = true ->
  field_text_ok m (v ++ sp) = true /\ no_bare_semicolon m (v ++ sp) = true /\
  unquoted m (v ++ sp) = unquoted m v ++ sp.
Proof.
  intros P. induction v as [|b v IH]; intros m T S.
  - destruct m; try discriminate T. cbn [app unquoted]. now apply spaces_ok.
  - destruct m; cbn [app field_text_ok no_bare_semicolon unquoted] in *.
    + destruct (b =? 34); [now apply IH|].
      apply andb_true_iff in T, S. destruct T as [T1 T2], S as [S1 S2].
      destruct (IH Plain T2 S2) as (A & B & C). rewrite T1, S1, A, B, C. auto.
    + destruct (b =? 34); [now apply IH|]. destruct (b =? 92); [now apply IH|].
      apply andb_true_iff in T. destruct T as [T1 T2].
      destruct (IH Quoted T2 S) as (A & B & C). rewrite T1, A, B, C. auto.
    + apply andb_true_iff in T. destruct T as [T1 T2].
      destruct (IH Quoted T2 S) as (A & B & C). rewrite T1, A, B, C. auto.
Qed.

Lemma value_space h q cs s xs pad n w v sp ys d cs2 ts tail segs :
  Forall wf_chunk cs -> wf_chunk (Chunk s (xs ++ Ext pad n (Some (w, v)) :: ys) d) -> Forall wf_chunk cs2 ->
  Forall wf_header ts -> Forall (fun b => b = 32 \/ b = 9) sp ->
  List.concat segs = render_chunked (cs ++ Chunk s (xs ++ Ext pad n (Some (w, v ++ sp)) :: ys) d :: cs2) ts ++ tail ->
  exists p' log, feed h (init_chunked q) segs = (p', log, tail, OFinished) /\
    flat log = flat_map seen_chunk cs ++
      ([FEv EChunkBegin; FEv (EChunkLength (N.of_nat (List.length d)))] ++ flat_map seen_ext xs ++
       (map (FByte KChunkExtName) (map lower_case n) ++ map (FByte KChunkExtValue) (unquoted Plain v ++ sp) ++ [FEv EChunkExtFinished]) ++
       flat_map seen_ext ys ++ [FEv EChunkExtsFinished] ++ map (FByte KChunkData) d) ++
      seen_chunked cs2 ts.
Proof.
  intros F (L & H1 & H2 & H3 & X) F2 T P E. cbn [c_size c_exts c_data] in *.
  apply Forall_app in X. destruct X as [X1 X2]. inversion X2 as [|? ? (W1 & W2 & W3 & W) X3]; subst.
  cbn [x_pad x_name x_value] in *. destruct W as (W4 & V & V1 & V2). destruct (value_then sp P v Plain V1 V2) as (A & B & C).
  destruct (chunked_round h q (cs ++ Chunk s (xs ++ Ext pad n (Some (w, v ++ sp)) :: ys) d :: cs2) ts tail segs)
    as (p' & log & G & S); try assumption.
  - apply Forall_app. split; [assumption|]. constructor; [|assumption].
    unfold wf_chunk. cbn [c_size c_exts c_data]. repeat split; try assumption; try lia.
    apply Forall_app. split; [assumption|]. constructor; [|assumption].
    unfold wf_ext. cbn [x_pad x_name x_value]. repeat split; try assumption. destruct v; [contradiction|exact V].
  - exists p', log. split; [exact G|]. rewrite S. unfold seen_chunked. rewrite flat_map_app. cbn [flat_map].
    unfold seen_chunk at 2. cbn [c_exts c_data]. rewrite flat_map_app. cbn [flat_map].
    unfold seen_ext at 2. cbn [x_name x_value]. rewrite C. repeat (rewrite <- !app_assoc; cbn [app]). reflexivity.
Qed.
