(* The parser follows the automaton of Http2Sem.v as long as no fragile field
   is cut and no length becomes negative. *)

From Coq Require Import NArith List Bool Arith String Lia.
From Verif Require Import Bytes ByteStream Http2Model Http2Spec Http2Wp Http2Term Http2Sem.
Import ListNotations.
Local Open Scope N_scope.

(* ------------------------------------------------------------------ *)
(* Runs over data and padding                                           *)
(* ------------------------------------------------------------------ *)

Lemma kind_quiet s k a b c d : kind_of s = Some k -> quiet (mkA s a b c d).
Proof. destruct s; cbn; try discriminate; reflexivity. Qed.

Lemma kind_pre1 s k a b c d :
  kind_of s = Some k -> pre1 (mkA s a b c d) = Some ([], mkA s a b c d).
Proof. destruct s; cbn; try discriminate; reflexivity. Qed.

Lemma kind_pre2 s k a b c d :
  kind_of s = Some k ->
  pre2 (mkA s a b c d) =
  match sub32 true (plen a) (pads a) with
  | None => None
  | Some n => if n =? 0 then Some ([FEnd k], after_data (mkA s a b c d) a)
              else Some ([], mkA s a b c d)
  end.
Proof. intros K. unfold pre2. cbn [a_st a_a]. now rewrite K. Qed.

Lemma kind_eat s k a b c d v :
  kind_of s = Some k ->
  eat (mkA s a b c d) v =
  match adec a 1 with
  | Some a' =>
      if plen a' =? pads a' then Some ([FByte k v; FEnd k], after_data (mkA s a b c d) a')
      else Some ([FByte k v], mkA s a' b c d)
  | None => None
  end.
Proof.
  destruct s; cbn [kind_of]; try discriminate; intros K; injection K as <-; reflexivity.
Qed.

Lemma kind_ready s k l z b c d :
  kind_of s = Some k -> z < 256 -> z < l -> ready (mkA s (enc l z) b c d).
Proof.
  intros K Z L. split; [|split].
  - exact (kind_quiet _ _ _ _ _ _ K).
  - exact (kind_pre1 _ _ _ _ _ _ K).
  - rewrite (kind_pre2 _ _ _ _ _ _ K), plen_enc, pads_enc by assumption.
    rewrite sub32_ok by lia. destruct (N.eqb_spec (l - z) 0); [lia|reflexivity].
Qed.

(* Some, but not all of the data. *)
Lemma aexec_data s k b c d z r : kind_of s = Some k -> z < 256 -> forall x l,
  l < 2 ^ 24 -> z + N.of_nat (List.length x) < l ->
  aexec (mkA s (enc l z) b c d) (x ++ r) =
  before (map (FByte k) x) (aexec (mkA s (enc (l - N.of_nat (List.length x)) z) b c d) r).
Proof.
  intros K Z. induction x as [|v x IH]; intros l L H.
  - cbn [app map List.length]. rewrite before_nil. now rewrite N.sub_0_r.
  - cbn [List.length] in H. cbn [app map].
    rewrite (aexec_eat _ v (x ++ r) [FByte k v] (mkA s (enc (l - 1) z) b c d)).
    + rewrite IH by lia. rewrite before_before. cbn [app List.length].
      do 3 f_equal. f_equal. lia.
    + apply (kind_ready _ _ _ _ _ _ _ K Z). lia.
    + rewrite (kind_eat _ _ _ _ _ _ _ K), adec_enc by (assumption || lia).
      rewrite plen_enc, pads_enc by assumption.
      destruct (N.eqb_spec (l - 1) z); [lia|reflexivity].
Qed.

(* The state after the data. *)
Definition done (z b c d : N) : A :=
  if 0 <? z then mkA StFramePadding (enc z z) b c d else A0.

Lemma ready_A0 : ready A0.
Proof. repeat split. Qed.

Lemma after_data_enc z s a b c d :
  z < 256 -> after_data (mkA s a b c d) (enc z z) = done z b c d.
Proof.
  intros Z. unfold after_data, done. rewrite pads_enc by assumption. reflexivity.
Qed.

Lemma pad_ready l z b c d : z < 256 -> 0 < l -> ready (mkA StFramePadding (enc l z) b c d).
Proof.
  intros Z L. repeat split. unfold pre2. cbn [kind_of a_st a_a]. rewrite plen_enc by assumption.
  destruct (N.eqb_spec l 0); [lia|reflexivity].
Qed.

Lemma done_ready z b c d : z < 256 -> ready (done z b c d).
Proof.
  intros Z. unfold done. destruct (N.ltb_spec 0 z); [|exact ready_A0]. now apply pad_ready.
Qed.

(* All of the data. *)
Lemma aexec_data_end s k b c d z r x l :
  kind_of s = Some k -> z < 256 -> l < 2 ^ 24 -> l = z + N.of_nat (List.length x) ->
  x ++ r <> [] ->
  aexec (mkA s (enc l z) b c d) (x ++ r) =
  before (map (FByte k) x ++ [FEnd k]) (aexec (done z b c d) r).
Proof.
  intros K Z L H NE. destruct x as [|v x] using rev_ind.
  - cbn [app map List.length] in *. destruct r as [|v r]; [congruence|].
    apply aexec_pre2.
    + exact (kind_quiet _ _ _ _ _ _ K).
    + exact (kind_pre1 _ _ _ _ _ _ K).
    + rewrite (kind_pre2 _ _ _ _ _ _ K), plen_enc, pads_enc by assumption.
      rewrite sub32_ok by lia. destruct (N.eqb_spec (l - z) 0); [|lia].
      replace l with z by lia. now rewrite after_data_enc.
    + now apply done_ready.
  - clear IHx. rewrite app_length in H. cbn [List.length] in H. rewrite <- app_assoc.
    rewrite (aexec_data _ k) by (assumption || lia).
    rewrite map_app, <- app_assoc, <- before_before. f_equal.
    cbn [map app]. replace (l - N.of_nat (List.length x)) with (z + 1) by lia.
    apply aexec_eat.
    + apply (kind_ready _ _ _ _ _ _ _ K Z). lia.
    + rewrite (kind_eat _ _ _ _ _ _ _ K), adec_enc by (assumption || lia).
      replace (z + 1 - 1) with z by lia. rewrite plen_enc, pads_enc by assumption.
      rewrite N.eqb_refl. now rewrite after_data_enc.
Qed.

(* Some, but not all of the padding. *)
Lemma aexec_pad b c d z r : z < 256 -> forall x l,
  l < 2 ^ 24 -> N.of_nat (List.length x) < l ->
  aexec (mkA StFramePadding (enc l z) b c d) (x ++ r) =
  aexec (mkA StFramePadding (enc (l - N.of_nat (List.length x)) z) b c d) r.
Proof.
  intros Z. induction x as [|v x IH]; intros l L H.
  - cbn [app List.length]. now rewrite N.sub_0_r.
  - cbn [List.length] in H. cbn [app].
    rewrite (aexec_eat _ v (x ++ r) [] (mkA StFramePadding (enc (l - 1) z) b c d)).
    + rewrite before_nil. rewrite IH by lia. cbn [List.length]. do 3 f_equal. lia.
    + apply pad_ready; [assumption|lia].
    + unfold eat. rewrite adec_enc by (assumption || lia). rewrite plen_enc by assumption.
      destruct (N.eqb_spec (l - 1) 0); [lia|reflexivity].
Qed.

(* All of the padding. *)
Lemma aexec_pad_end b c d z r x l :
  z < 256 -> l < 2 ^ 24 -> l = N.of_nat (List.length x) -> x ++ r <> [] ->
  aexec (mkA StFramePadding (enc l z) b c d) (x ++ r) = aexec A0 r.
Proof.
  intros Z L H NE. destruct x as [|v x] using rev_ind.
  - cbn [app List.length] in *. destruct r as [|v r]; [congruence|].
    rewrite <- (before_nil (aexec A0 (v :: r))). apply aexec_pre2; try reflexivity.
    + unfold pre2. cbn [kind_of a_st a_a]. rewrite plen_enc by assumption.
      subst l. reflexivity.
    + exact ready_A0.
  - clear IHx. rewrite app_length in H. cbn [List.length] in H. rewrite <- app_assoc.
    rewrite aexec_pad by (assumption || lia).
    replace (l - N.of_nat (List.length x)) with 1 by lia. cbn [app].
    rewrite <- (before_nil (aexec A0 r)). apply aexec_eat.
    + apply pad_ready; [assumption|lia].
    + unfold eat. rewrite adec_enc by (assumption || lia). rewrite plen_enc by assumption.
      reflexivity.
Qed.

(* ------------------------------------------------------------------ *)
(* One step of the parser                                               *)
(* ------------------------------------------------------------------ *)

Lemma target_eq m : frame_target m = target (bit_data32a (mp m)) (bit_data16a (mp m)).
Proof. reflexivity. Qed.

Lemma target_abs a b c d a' c' n s :
  abs (Parser a b c d n s (target a' c')) = mkA (target a' c') a b c d.
Proof.
  pose proof (target_cases a' c') as H. cbn [In] in H. unfold abs. cbn [state_fn].
  repeat (destruct H as [<-|H]; [reflexivity|]). destruct H.
Qed.

Lemma target_good a c : bad (target a c) = false.
Proof.
  pose proof (target_cases a c) as H. cbn [In] in H.
  repeat (destruct H as [<-|H]; [reflexivity|]). destruct H.
Qed.

(* What holds of a machine state that follows the automaton: no length gets
   negative in the rest of the stream, and the end of the rest is not in the
   middle of a fragile field. *)
Definition follows (m : mach) : Prop :=
  bit_data32a (mp m) < 2 ^ 32 /\ bytes (crest (mc m)) /\ live (state_fn (mp m)) = true /\
  bad (state_fn (mp m)) = false /\ cslice (mc m) = [] /\
  exists y, snd (aexec (abs (mp m)) (crest (mc m))) = Some y /\ bad (a_st y) = false.

Definition sim_post (m m' : mach) (o : outcome) : Prop :=
  (match o with Continue | Exit (SCallback _) | Exit (SEos _) => True | _ => False end) /\
  exists new, ml m' = ml m ++ new /\
    aexec (abs (mp m)) (crest (mc m)) = before (flat new) (aexec (abs (mp m')) (crest (mc m'))) /\
    bad (state_fn (mp m')) = false /\ bit_data32a (mp m') < 2 ^ 32.

Lemma snd_before e r : snd (before e r) = snd r.
Proof. reflexivity. Qed.

(* one byte *)
Ltac ready := split; [|split]; reflexivity.
Ltac eat1 := erewrite aexec_eat; [|ready|reflexivity].

Lemma sub32_some chk a b v : sub32 chk a b = Some v -> b <= a -> v = a - b.
Proof. intros H L. rewrite (sub32_ok chk a b L) in H. congruence. Qed.

Lemma sub32_none chk a b : sub32 chk a b = None -> a < b.
Proof. unfold sub32. destruct (N.leb_spec b a); [discriminate|auto]. Qed.

Lemma sub32_true a b : sub32 true a b = None \/ (b <= a /\ sub32 true a b = Some (a - b)).
Proof. unfold sub32. destruct (N.leb_spec b a); auto. Qed.

Lemma adec_none chk a n : sub32 chk (N.shiftr a 8) n = None -> adec a n = None.
Proof.
  intros H. apply sub32_none in H. unfold adec.
  destruct (sub32_true (plen a) n) as [->|[H2 _]]; [reflexivity|]. unfold plen in H2. lia.
Qed.

Lemma adec_some chk a n v :
  sub32 chk (N.shiftr a 8) n = Some v ->
  adec a n = None \/ adec a n = Some (N.lor (N.land a 255) (shl32 v 8)).
Proof.
  intros H. unfold adec. destruct (sub32_true (plen a) n) as [->|[H2 ->]]; [now left|].
  right. apply sub32_some in H; [|exact H2]. subst v. reflexivity.
Qed.

Lemma data_ok s k a b c d v r y :
  kind_of s = Some k -> snd (aexec (mkA s a b c d) (v :: r)) = Some y -> pads a <= plen a.
Proof.
  intros K E. destruct (sub32_true (plen a) (pads a)) as [N|[H _]]; [exfalso|exact H].
  cbn [aexec] in E. pose proof (kind_quiet _ _ a b c d K) as Q. unfold quiet in Q.
  rewrite Q, (kind_pre1 _ _ _ _ _ _ K), (kind_pre2 _ _ _ _ _ _ K), N in E. discriminate E.
Qed.

Lemma flat_bytes k x : flat [EData k x false] = map (FByte k) x.
Proof. unfold flat. cbn [flat_map flat1]. now rewrite ?app_nil_r. Qed.

Lemma flat_bytes_end k x : flat [EData k x true] = map (FByte k) x ++ [FEnd k].
Proof. unfold flat. cbn [flat_map flat1]. now rewrite ?app_nil_r. Qed.

Lemma abs_kind s k a b c d n st :
  kind_of s = Some k -> abs (Parser a b c d n st s) = mkA s a b c d.
Proof. destruct s; cbn; try discriminate; reflexivity. Qed.

Lemma kind_good s k : kind_of s = Some k -> bad s = false.
Proof. destruct s; cbn; try discriminate; reflexivity. Qed.

Lemma u32_small n : n < 2 ^ 32 -> u32 n = n.
Proof. intros H. unfold u32. now apply N.mod_small. Qed.

Lemma enc_lt32 l z : l < 2 ^ 24 -> z < 256 -> enc l z < 2 ^ 32.
Proof.
  intros L Z. unfold enc. change (2 ^ 32) with (2 ^ 24 * 256). lia.
Qed.

Lemma data_room chk h a b c d n st s k cb mk r l :
  kind_of s = Some k -> a < 2 ^ 32 -> r <> [] -> pads a <= plen a ->
  wp (parse_payload_data chk h (Mach (Parser a b c d n st s) (Ctx cb mk [] r) l) k)
     (sim_post (Mach (Parser a b c d n st s) (Ctx cb mk [] r) l)).
Proof.
  intros K A32 NE P.
  pose proof (pads_lt a) as Z. pose proof (plen_lt a A32) as L.
  assert (2 ^ 24 < 2 ^ 32) as LT by reflexivity.
  apply wp_payload; cbn [bit_data32a]; change (N.shiftr a 8) with (plen a);
    change (N.land a 255) with (pads a).
  - intros N. apply sub32_none in N. lia.
  - intros m v x r' E1 -> -> E2. cbv zeta. apply sub32_some in E1; [|exact P].
    apply sub32_some in E2; [|lia]. assert (v = pads a) as -> by lia.
    rewrite enc_lor by (assumption || lia).
    assert (aexec (mkA s a b c d) (x ++ r') =
            before (map (FByte k) x ++ [FEnd k]) (aexec (done (pads a) b c d) r')) as E.
    { rewrite (enc_all a) at 1. apply aexec_data_end; try assumption. lia. }
    unfold p_set_state, p_32a. cbn [bit_data32a bit_data32b bit_data16a bit_data16b byte_count].
    change (N.land (enc (pads a) (pads a)) 255) with (pads (enc (pads a) (pads a))).
    rewrite pads_enc by assumption. cbn [app].
    split; intros _; (split; [exact I|]); exists [EData k x true];
      (split; [reflexivity|]); rewrite flat_bytes_end; cbn [mp mc crest];
      rewrite (abs_kind _ _ _ _ _ _ _ _ K), E; unfold done; cbn [state_fn bit_data32a];
      (split; [destruct (0 <? pads a); reflexivity|]);
      (split; [destruct (0 <? pads a); reflexivity|]); apply enc_lt32; (assumption || lia).
  - intros m x r' E1 _ E3 E2. apply sub32_some in E1; [|exact P]. apply sub32_none in E2. lia.
  - intros m E1 H E2. apply sub32_some in E1; [|exact P]. apply sub32_none in E2.
    rewrite u32_small in E2 by lia. lia.
  - intros m v E1 H E2. cbv zeta. apply sub32_some in E1; [|exact P].
    rewrite u32_small in E2 by lia. apply sub32_some in E2; [|lia]. subst v.
    rewrite enc_lor by (assumption || lia).
    assert (aexec (mkA s a b c d) r =
            before (map (FByte k) r)
              (aexec (mkA s (enc (plen a - N.of_nat (List.length r)) (pads a)) b c d) [])) as E.
    { rewrite (enc_all a) at 1. rewrite <- (app_nil_r r) at 1. apply aexec_data; try assumption. lia. }
    unfold p_32a. cbn [bit_data32a bit_data32b bit_data16a bit_data16b byte_count state state_fn app].
    split; intros _; (split; [exact I|]); exists [EData k r false];
      (split; [reflexivity|]); rewrite flat_bytes; cbn [mp mc crest];
      rewrite !(abs_kind _ _ _ _ _ _ _ _ K), E; cbn [state_fn bit_data32a];
      (split; [reflexivity|]);
      (split; [exact (kind_good _ _ K)|]); apply enc_lt32; (assumption || lia).
Qed.

Lemma data_sim chk h a b c d n st s k cb mk r l :
  kind_of s = Some k -> a < 2 ^ 32 -> r <> [] ->
  (exists y, snd (aexec (mkA s a b c d) r) = Some y) ->
  wp (parse_payload_data chk h (Mach (Parser a b c d n st s) (Ctx cb mk [] r) l) k)
     (sim_post (Mach (Parser a b c d n st s) (Ctx cb mk [] r) l)).
Proof.
  intros K A32 NE [y EY]. apply data_room; try assumption.
  destruct r as [|v r]; [congruence|]. exact (data_ok _ _ _ _ _ _ _ _ _ K EY).
Qed.

Lemma pad_sim chk a b c d n st cb mk r l :
  a < 2 ^ 32 ->
  wp (frame_padding chk (Mach (Parser a b c d n st StFramePadding) (Ctx cb mk [] r) l))
     (sim_post (Mach (Parser a b c d n st StFramePadding) (Ctx cb mk [] r) l)).
Proof.
  intros A32.
  pose proof (pads_lt a) as Z. pose proof (plen_lt a A32) as L.
  assert (2 ^ 24 < 2 ^ 32) as LT by reflexivity.
  apply wp_padding; cbn [bit_data32a]; change (N.shiftr a 8) with (plen a);
    change (N.land a 255) with (pads a).
  - intros ->. split; [exact I|]. exists []. cbn [ml mp mc crest]. rewrite app_nil_r.
    split; [reflexivity|]. rewrite before_nil. auto.
  - intros x r' -> NE E. split; [exact I|]. exists []. cbn [ml mp mc crest]. rewrite app_nil_r.
    split; [reflexivity|]. rewrite before_nil. split; [|split; [reflexivity|exact A32]].
    unfold abs. cbn [state_fn p_set_state bit_data32a bit_data32b bit_data16a bit_data16b].
    rewrite (enc_all a). now apply aexec_pad_end.
  - intros H NE E. apply sub32_none in E. rewrite u32_small in E by lia. lia.
  - intros v H NE E. rewrite u32_small in E by lia. apply sub32_some in E; [|lia]. subst v.
    rewrite enc_lor by (assumption || lia).
    split; [exact I|]. exists []. cbn [ml mp mc crest]. rewrite app_nil_r.
    split; [reflexivity|]. rewrite before_nil.
    unfold abs, p_32a. cbn [state_fn p_set_state bit_data32a bit_data32b bit_data16a bit_data16b].
    split; [|split; [reflexivity|apply enc_lt32; (assumption || lia)]].
    rewrite (enc_all a) at 1. rewrite <- (app_nil_r r) at 1. now apply aexec_pad.
Qed.

Lemma land_lt a x n : a < n -> N.land a x < n.
Proof.
  intros H. eapply N.le_lt_trans; [|exact H]. destruct a, x; cbn; try lia.
  clear H. revert p0. induction p as [p IH|p IH|]; intros [q|q|]; cbn; try lia;
    specialize (IH q); destruct (Pos.land p q); cbn; lia.
Qed.

Ltac lt32 :=
  repeat match goal with
  | H : bytes (_ :: _) |- _ => apply Forall_cons_iff in H; destruct H
  | H : Forall _ (_ :: _) |- _ => apply Forall_cons_iff in H; destruct H
  end;
  first [assumption | apply shl32_lt | apply land_lt; lt32 | apply lor_lt; lt32
        | eapply N.lt_trans; [eassumption|reflexivity] | reflexivity].

Lemma some_eq {X} (a b : X) : Some a = Some b -> a = b.
Proof. congruence. Qed.

Lemma run_fn_sim chk h m : follows m -> wp (run_fn chk h m) (sim_post m).
Proof.
  destruct m as [p [cb mk sl r] l]. unfold follows. cbn [mp mc ml crest cslice].
  intros (A32 & B & Lv & Bd & -> & y & EY & BY).
  destruct p as [a b c d n st fn]. cbn [bit_data32a state_fn] in *.
  unfold run_fn. cbn [mp state_fn].
  destruct fn eqn:Efn; try discriminate Lv; try discriminate Bd; unfold_state.
  (* data *)
  all: try solve [apply wp_exit_if_eos;
    [intros ->; split; [exact I|]; exists []; rewrite app_nil_r; split; [reflexivity|];
       rewrite before_nil; auto
    |intros b0 r' ->; apply data_sim; [reflexivity|assumption|discriminate|exists y; exact EY]]].
  all: try exact (pad_sim chk a b c d n st cb mk r l A32).
  all: wp_all.
  all: unfold sim_post; cbv zeta.
  all: cbn [mp mc ml crest cslice cmark cbyte state state_fn p_set_state p_32a p_32b p_16a p_16b
            with_c with_p bs_jump reset_bit_data bit_data32a bit_data32b bit_data16a bit_data16b].
  all: try (match goal with
       |- context [abs (Parser ?a ?b ?c ?d ?n ?s StFrameLength1)] =>
         change (abs (Parser a b c d n s StFrameLength1)) with A0 in * end).
  (* nothing read *)
  all: try solve [split; [exact I|]; exists []; rewrite app_nil_r; split; [reflexivity|];
    split; [now rewrite before_nil|]; split; [reflexivity|assumption]].
  (* bytes of fixed fields *)
  all: try solve [split; [exact I|]; exists []; rewrite app_nil_r; split; [reflexivity|];
    split; [repeat eat1; rewrite ?before_before; reflexivity|]; split; [reflexivity|]; 
lt32].
  all: try solve [rewrite !N.lor_0_l; split; [exact I|]; exists []; rewrite app_nil_r;
    split; [reflexivity|];
    split; [repeat eat1; rewrite ?before_before; reflexivity|]; split; [reflexivity|]; lt32].
  (* fragile fields *)
  all: try solve [exfalso; boolP; revert EY;
    match goal with H : (List.length (_ :: ?x) < 4)%nat |- _ =>
      destruct x as [|? [|? [|? ?]]]; cbn [List.length] in H; try lia end;
    cbn [abs state_fn bit_data32a bit_data32b bit_data16a bit_data16b];
    repeat eat1; rewrite ?snd_before, aexec_nil by reflexivity;
    intros EY; apply some_eq in EY; subst y; discriminate BY].
  (* callbacks *)
  all: try solve [split; [exact I|]; eexists; split; [reflexivity|];
     cbn [abs state_fn bit_data32a bit_data32b bit_data16a bit_data16b];
     split; [erewrite aexec_post by reflexivity; reflexivity|split; [reflexivity|assumption]]].
  (* lengths *)
  all: try match goal with H : sub32 _ (N.shiftr (bit_data32a _) 8) _ = _ |- _ =>
         cbn [p_32a p_16a bit_data32a] in H end.
  all: cbn [abs state_fn bit_data32a bit_data32b bit_data16a bit_data16b] in EY.
  all: try match goal with
       | H : sub32 _ (N.shiftr _ 8) _ = None |- _ =>
         exfalso; apply adec_none in H; cbn [aexec post pre1 pre2 a_st a_a kind_of] in EY;
         first [rewrite H in EY; discriminate EY
           | unfold eat in EY; rewrite H in EY; discriminate EY 
           | destruct r; cbn [aexec post] in EY; rewrite H in EY; discriminate EY ]
       end.
  all: try match goal with H : sub32 _ (N.shiftr _ 8) _ = Some _ |- _ =>
         apply adec_some in H; destruct H as [H|H];
         [exfalso; cbn [aexec post pre1 pre2 a_st a_a kind_of] in EY;
         first [rewrite H in EY; discriminate EY
           | unfold eat in EY; rewrite H in EY; discriminate EY 
           | destruct r; cbn [aexec post] in EY; rewrite H in EY; discriminate EY ]|] end.
  all: try solve [split; [exact I|]; exists []; rewrite app_nil_r;
    split; [reflexivity|];
    split; [erewrite aexec_eat; [|ready|unfold abs, eat; cbn [state_fn]; rewrite E; reflexivity]; reflexivity|]; split; [reflexivity|]; lt32].
  all: try solve [split; [exact I|]; eexists; split; [reflexivity|];
    rewrite target_eq; cbn [mp bit_data32a bit_data16a];
    split; [|split; [apply target_good|apply land_lt; assumption]];
    unfold p_32b, p_32a, p_16a, p_set_state;
    cbn [bit_data32a bit_data32b bit_data16a bit_data16b byte_count state state_fn];
    rewrite target_abs;
    cbn [abs bit_data32a bit_data32b bit_data16a bit_data16b byte_count state state_fn];
    erewrite aexec_post by (cbn [post]; exact eq_refl); exact eq_refl].


  all: try solve [match goal with H : adec _ _ = Some _ |- _ =>
    split; [exact I|]; exists []; rewrite app_nil_r;
    (split; [reflexivity|]) ;
    (split; [erewrite aexec_eat; [|ready|unfold abs, eat; cbn [state_fn bit_data32a]; rewrite H; reflexivity]; reflexivity|]); split; [reflexivity|] end; lt32].
  all: try solve [match goal with H : adec _ _ = Some _ |- _ =>
    split; [exact I|]; eexists; split; [reflexivity|];
    cbn [abs bit_data32a bit_data32b bit_data16a bit_data16b byte_count state state_fn];
    split; [erewrite aexec_pre1; [|reflexivity|unfold pre1; cbn [a_st a_a]; rewrite H; reflexivity
      |reflexivity|reflexivity]; reflexivity|split; [reflexivity|]] end; lt32].
  all: try solve [match goal with H : adec _ _ = Some _ |- _ =>
    split; [exact I|]; eexists; split; [reflexivity|];
    cbn [abs bit_data32a bit_data32b bit_data16a bit_data16b byte_count state state_fn];
    split; [erewrite aexec_post by (cbn [post]; rewrite H; reflexivity); unfold plen;
       destruct (0 <? _); reflexivity |split; [destruct (0 <? _); reflexivity|]] end; lt32].
Qed.
