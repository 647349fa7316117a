(* Checked builds on streams with a frame that is too short: the parser follows
   the automaton up to the overflow. *)

From Coq Require Import NArith List Bool Arith String Lia.
From Verif Require Import Bytes ByteStream Http2Model Http2Spec Http2Wp Http2Term Http2Sem Http2Sim Http2Run.
Import ListNotations.
Local Open Scope N_scope.

(* The rest of the stream makes a length negative. *)
Definition doomed (m : mach) : Prop :=
  bit_data32a (mp m) < 2 ^ 32 /\ bytes (crest (mc m)) /\ live (state_fn (mp m)) = true /\
  bad (state_fn (mp m)) = false /\ cslice (mc m) = [] /\
  snd (aexec (abs (mp m)) (crest (mc m))) = None.

Definition doom_post (m m' : mach) (o : outcome) : Prop :=
  match o with
  | Faulted FOverflow => ml m' = ml m /\ aexec (abs (mp m)) (crest (mc m)) = ([], None)
  | _ => sim_post m m' o
  end.

Lemma sim_doom m m' o : sim_post m m' o -> doom_post m m' o.
Proof. intros [H1 H2]. destruct o as [|[]| |]; try contradiction H1; now split. Qed.

Lemma wp_weaken r (P Q : mach -> outcome -> Prop) :
  (forall m o, P m o -> Q m o) -> wp r P -> wp r Q.
Proof. intros H. unfold wp. destruct r. apply H. Qed.

Lemma data_doom h a b c d n st s k cb mk r l :
  kind_of s = Some k -> a < 2 ^ 32 -> r <> [] ->
  wp (parse_payload_data true h (Mach (Parser a b c d n st s) (Ctx cb mk [] r) l) k)
     (doom_post (Mach (Parser a b c d n st s) (Ctx cb mk [] r) l)).
Proof.
  intros K A32 NE. destruct (N.le_gt_cases (pads a) (plen a)) as [P|P].
  - eapply wp_weaken; [|apply data_room; eassumption]. intros. now apply sim_doom.
  - assert (sub32 true (plen a) (pads a) = None) as N.
    { unfold sub32. destruct (N.leb_spec (pads a) (plen a)); [lia|reflexivity]. }
    apply wp_payload; cbn [bit_data32a]; change (N.shiftr a 8) with (plen a);
      change (N.land a 255) with (pads a); rewrite N; try discriminate.
    intros _. cbn [doom_post]. split; [reflexivity|]. cbn [mp mc crest].
    rewrite (abs_kind _ _ _ _ _ _ _ _ K). destruct r as [|v r]; [congruence|]. cbn [aexec].
    pose proof (kind_quiet _ _ a b c d K) as Q. unfold quiet in Q.
    rewrite Q, (kind_pre1 _ _ _ _ _ _ K), (kind_pre2 _ _ _ _ _ _ K), N. reflexivity.
Qed.

Lemma adec_true a k v :
  sub32 true (N.shiftr a 8) k = Some v -> adec a k = Some (N.lor (N.land a 255) (shl32 v 8)).
Proof.
  intros H. unfold sub32 in H. destruct (N.leb_spec k (N.shiftr a 8)) as [Q|Q]; [|discriminate].
  apply some_eq in H. subst v. unfold adec, plen, pads, sub32.
  destruct (N.leb_spec k (N.shiftr a 8)); [exact eq_refl|lia].
Qed.

Lemma run_fn_doom h m : doomed m -> wp (run_fn true h m) (doom_post m).
Proof.
  destruct m as [p [cb mk sl r] l]. unfold doomed. cbn [mp mc ml crest cslice].
  intros (A32 & B & Lv & Bd & -> & EY).
  destruct p as [a b c d n st fn]. cbn [bit_data32a state_fn] in *.
  unfold run_fn. cbn [mp state_fn].
  destruct fn eqn:Efn; try discriminate Lv; try discriminate Bd; unfold_state.
  (* data *)
  all: try solve [apply wp_exit_if_eos;
    [intros ->; apply sim_doom; split; [exact I|]; exists []; rewrite app_nil_r; split; [reflexivity|];
       rewrite before_nil; auto
    |intros b0 r' ->; apply data_doom; [reflexivity|assumption|discriminate]]].
  all: try solve [eapply wp_weaken; [|exact (pad_sim true a b c d n st cb mk r l A32)];
    intros; now apply sim_doom].
  all: wp_all.
  all: unfold doom_post, sim_post; cbv zeta.
  all: cbn [mp mc ml crest cslice cmark cbyte state state_fn p_set_state p_32a p_32b p_16a p_16b
            with_c with_p bs_jump reset_bit_data bit_data32a bit_data32b bit_data16a bit_data16b].
  all: try (match goal with
       |- context [abs (Parser ?a ?b ?c ?d ?n ?s StFrameLength1)] =>
         change (abs (Parser a b c d n s StFrameLength1)) with A0 in * end).
  (* nothing read *)
  all: try solve [split; [exact I|]; exists []; rewrite app_nil_r; split; [reflexivity|];
    split; [now rewrite before_nil|]; split; [reflexivity|assumption]].
  (* bytes of fixed fields *)
  all: try solve [split; [exact I|]; exists []; rewrite app_nil_r; split; [reflexivity|];
    split; [repeat eat1; rewrite ?before_before; reflexivity|]; split; [reflexivity|]; 
lt32].
  all: try solve [rewrite !N.lor_0_l; split; [exact I|]; exists []; rewrite app_nil_r;
    split; [reflexivity|];
    split; [repeat eat1; rewrite ?before_before; reflexivity|]; split; [reflexivity|]; lt32].
  (* fragile fields: no length gets negative there *)
  all: try solve [exfalso; boolP; revert EY;
    match goal with H : (List.length (_ :: ?x) < 4)%nat |- _ =>
      destruct x as [|? [|? [|? ?]]]; cbn [List.length] in H; try lia end;
    cbn [abs state_fn bit_data32a bit_data32b bit_data16a bit_data16b];
    repeat eat1; rewrite ?snd_before, aexec_nil by reflexivity; discriminate].
  (* callbacks *)
  all: try solve [split; [exact I|]; eexists; split; [reflexivity|];
     cbn [abs state_fn bit_data32a bit_data32b bit_data16a bit_data16b];
     split; [erewrite aexec_post by reflexivity; reflexivity|split; [reflexivity|assumption]]].
  (* lengths *)
  all: try match goal with H : sub32 _ (N.shiftr (bit_data32a _) 8) _ = _ |- _ =>
         cbn [p_32a p_16a bit_data32a] in H end.
  all: cbn [abs state_fn bit_data32a bit_data32b bit_data16a bit_data16b].
  all: try solve [match goal with
       | H : sub32 _ (N.shiftr _ 8) _ = None |- _ =>
         split; [reflexivity|]; apply adec_none in H;
         first [cbn [aexec post pre1 pre2 a_st a_a kind_of eat]; rewrite H; reflexivity
           | destruct r; cbn [aexec post]; rewrite H; reflexivity ]
       end].
  all: try match goal with H : sub32 true (N.shiftr _ 8) _ = Some _ |- _ =>
         apply adec_true in H end.
  all: try solve [split; [exact I|]; eexists; split; [reflexivity|];
    rewrite target_eq; cbn [mp bit_data32a bit_data16a];
    split; [|split; [apply target_good|apply land_lt; assumption]];
    unfold p_32b, p_32a, p_16a, p_set_state;
    cbn [bit_data32a bit_data32b bit_data16a bit_data16b byte_count state state_fn];
    rewrite target_abs;
    cbn [abs bit_data32a bit_data32b bit_data16a bit_data16b byte_count state state_fn];
    erewrite aexec_post by (cbn [post]; exact eq_refl); exact eq_refl].
  all: try solve [match goal with H : adec _ _ = Some _ |- _ =>
    split; [exact I|]; exists []; rewrite app_nil_r;
    (split; [reflexivity|]) ;
    (split; [erewrite aexec_eat; [|ready|unfold abs, eat; cbn [state_fn bit_data32a]; rewrite H; reflexivity]; reflexivity|]); split; [reflexivity|] end; lt32].
  all: try solve [match goal with H : adec _ _ = Some _ |- _ =>
    split; [exact I|]; eexists; split; [reflexivity|];
    cbn [abs bit_data32a bit_data32b bit_data16a bit_data16b byte_count state state_fn];
    split; [erewrite aexec_pre1; [|reflexivity|unfold pre1; cbn [a_st a_a]; rewrite H; reflexivity
      |reflexivity|reflexivity]; reflexivity|split; [reflexivity|]] end; lt32].
  all: try solve [match goal with H : adec _ _ = Some _ |- _ =>
    split; [exact I|]; eexists; split; [reflexivity|];
    cbn [abs bit_data32a bit_data32b bit_data16a bit_data16b byte_count state state_fn];
    split; [erewrite aexec_post by (cbn [post]; rewrite H; reflexivity); unfold plen;
       destruct (0 <? _); reflexivity |split; [destruct (0 <? _); reflexivity|]] end; lt32].
Qed.

Lemma loop_doom h n m m' o :
  loop true h n m m' o -> doomed m ->
  exists new, ml m' = ml m ++ new /\
  match o with
  | Exit (SCallback _) | Exit (SEos _) =>
      aexec (abs (mp m)) (crest (mc m)) = before (flat new) (aexec (abs (mp m')) (crest (mc m'))) /\
      bad (state_fn (mp m')) = false /\ bit_data32a (mp m') < 2 ^ 32
  | Faulted FOverflow => aexec (abs (mp m)) (crest (mc m)) = (flat new, None)
  | _ => False
  end.
Proof.
  intros L. remember true as chk eqn:Ec. induction L as [m m' o R N|n m m1 m' o R L IH]; intros F; subst.
  - pose proof (wp_run _ _ (run_fn_doom h m F) _ _ R) as S.
    destruct o as [|[k|k|k]| |[]]; cbn [doom_post] in S.
    all: try solve [destruct S as [S1 S2]; contradiction S1 || tauto].
    all: try solve [destruct S as [_ S]; exact S].
    destruct S as [-> S]. exists []. rewrite app_nil_r. auto.
  - pose proof (wp_run _ _ (run_fn_doom h m F) _ _ R) as [_ (new & S1 & S2 & S3 & S4)].
    pose proof (wp_run _ _ (run_fn_step true h m) _ _ R) as [(x & C1 & C2) (_ & _ & T1 & T2)].
    destruct F as (_ & F2 & _ & _ & _ & F3).
    assert (doomed m1) as F.
    { repeat split; auto.
      - rewrite C1 in F2. apply Forall_app in F2. apply F2.
      - rewrite S2, snd_before in F3. exact F3. }
    destruct (IH F) as (new' & I1 & I2).
    exists (new ++ new'). rewrite I1, S1, app_assoc. split; [reflexivity|].
    unfold flat. rewrite flat_map_app. fold (flat new) (flat new').
    destruct o as [|[k|k|k]| |[]]; try contradiction I2; try (rewrite S2, I2; reflexivity).
    all: destruct I2 as (I2 & I3 & I4); rewrite S2, I2, before_before; auto.
Qed.

Lemma resume_doom h p log s p' log' r :
  ok p -> bytes s -> snd (aexec (abs p) s) = None -> resume true h p log s = (p', log', r) ->
  exists new, log' = log ++ new /\
  match r with
  | ROk (SCallback n) =>
      ok p' /\ (measure (state_fn p') (skipn n s) < measure (state_fn p) s)%nat /\
      bytes (skipn n s) /\
      aexec (abs p) s = before (flat new) (aexec (abs p') (skipn n s))
  | RFault FOverflow => aexec (abs p) s = (flat new, None)
  | _ => False
  end.
Proof.
  intros (K1 & K2 & K3 & K4) B G E.
  pose proof (waiting_live _ K2) as Lv.
  destruct (resume_loop _ _ _ _ _ _ _ _ E) as (k & m' & o & L & _ & Ep & El & Er & NF).
  assert (doomed (Mach p (bs_new s) log)) as F.
  { repeat split; cbn [mp mc bs_new crest cslice]; auto. }
  destruct (loop_facts _ _ _ _ _ _ L Lv) as [(x & C1 & C2) P].
  unfold cindex at 2 in C2. cbn [mc mp bs_new crest cmark cslice List.length] in *.
  rewrite Nat.add_0_l in C2.
  destruct (loop_doom _ _ _ _ _ L F) as (new & S1 & S2).
  cbn [mp mc ml bs_new crest] in *. exists new.
  destruct o as [|[n|n|n]|e|[]]; try contradiction S2; cbn [finish snd fst mp ml with_p] in *; subst r p' log';
    (split; [exact S1|]).
  - destruct S2 as (S2 & S3 & S4). destruct P as (-> & P2 & P3 & P4). split; [repeat split; auto|].
    rewrite C2, <- (suffix_skipn _ _ _ C1).
    split; [exact P2|]. split; [|exact S2].
    rewrite C1 in B. apply Forall_app in B. apply B.
  - destruct S2 as (S2 & S3 & S4). destruct P as (-> & P2 & P3 & P4). rewrite P2 in S2.
    rewrite S2, snd_before, aexec_nil in G by now apply waiting_quiet. discriminate.
  - exact S2.
Qed.

(* No piece ends in a fragile field. *)
Definition sound_cuts (x : A) (segs : list (list byte)) : Prop :=
  forall b a y, segs = b ++ a -> snd (aexec x (List.concat b)) = Some y -> bad (a_st y) = false.

Lemma client_doom h : forall fuel segs p log,
  ok p -> bytes (List.concat segs) -> sound_cuts (abs p) segs ->
  snd (aexec (abs p) (List.concat segs)) = None ->
  match segs with [] => True | seg :: more =>
    (measure (state_fn p) seg + 1 + calls more <= fuel)%nat end ->
  exists p' new,
    client fuel true h p log segs = (p', log ++ new, OFault FOverflow) /\
    aexec (abs p) (List.concat segs) = (flat new, None).
Proof.
  induction fuel as [|fuel IH]; intros [|seg more] p log K B G D M.
  1, 3: exfalso; cbn [List.concat] in D; rewrite aexec_nil in D by (apply waiting_quiet, K); discriminate.
  - lia.
  - cbn [client]. destruct (resume true h p log seg) as [[p1 l1] r] eqn:E.
    cbn [List.concat] in B, D. apply Forall_app in B. destruct B as [B1 B2].
    destruct (snd (aexec (abs p) seg)) as [y1|] eqn:G1.
    + assert (bad (a_st y1) = false) as Y1.
      { apply (G [seg] more); [reflexivity|]. cbn [List.concat]. now rewrite app_nil_r. }
      destruct (resume_sim _ _ _ _ _ _ _ _ K B1 (ex_intro _ y1 (conj G1 Y1)) E) as (K1 & new & -> & R).
      destruct r as [[n|n|n]| | |]; try contradiction R.
      * destruct R as (R1 & R2 & R3).
        assert (snd (aexec (abs p1) (skipn n seg)) = Some y1) as G2
          by now rewrite R3, snd_before in G1.
        destruct (IH (skipn n seg :: more) p1 (log ++ new)) as (p' & new' & C & X).
        -- exact K1.
        -- cbn [List.concat]. apply Forall_app. auto.
        -- intros b a y Eb. destruct b as [|c b].
           ++ cbn [List.concat]. rewrite aexec_nil by apply waiting_quiet, K1.
              intros Q. apply some_eq in Q. subst y. destruct K1 as (_ & _ & K1 & _). unfold abs.
              destruct (state_fn p1); exact K1 || reflexivity.
           ++ cbn [app] in Eb. injection Eb as <- Eb. intros Q.
              apply (G (seg :: b) a y); [now rewrite Eb|]. cbn [List.concat] in *.
              rewrite aexec_app, G2, snd_before in Q. now rewrite aexec_app, G1, snd_before.
        -- cbn [List.concat]. rewrite aexec_app, G1, snd_before in D.
           now rewrite aexec_app, G2, snd_before.
        -- lia.
        -- exists p', (new ++ new'). rewrite app_assoc. split; [exact C|].
           cbn [List.concat] in *. rewrite aexec_app, G1, R3. rewrite aexec_app, G2 in X.
           unfold flat. rewrite flat_map_app. fold (flat new) (flat new').
           revert X. unfold before. cbn [fst snd]. intros X.
           injection X as X1 X2. now rewrite <- X1, <- X2, app_assoc.
      * destruct (IH more p1 (log ++ new)) as (p' & new' & C & X).
        -- exact K1.
        -- exact B2.
        -- intros b a y Eb Q. apply (G (seg :: b) a y); [now rewrite Eb|]. cbn [List.concat].
           now rewrite (aexec_split _ _ _ _ _ R), snd_before.
        -- now rewrite (aexec_split _ _ _ _ _ R), snd_before in D.
        -- destruct more as [|seg' more]; [exact I|]. cbn [calls] in M. cbn [calls].
           unfold measure in *. pose proof (rank_le (state_fn p1)). lia.
        -- exists p', (new ++ new'). rewrite app_assoc. split; [exact C|].
           cbn [List.concat]. rewrite (aexec_split _ _ _ _ _ R), X. unfold before, flat.
           cbn [fst snd]. now rewrite flat_map_app.
    + destruct (resume_doom _ _ _ _ _ _ _ K B1 G1 E) as (new & -> & R).
      destruct r as [[n|n|n]| |[]|]; try contradiction R.
      * destruct R as (K1 & R1 & R2 & R3).
        assert (snd (aexec (abs p1) (skipn n seg)) = None) as G2
          by now rewrite R3, snd_before in G1.
        destruct (IH (skipn n seg :: more) p1 (log ++ new)) as (p' & new' & C & X).
        -- exact K1.
        -- cbn [List.concat]. apply Forall_app. auto.
        -- intros b a y Eb. destruct b as [|c b].
           ++ cbn [List.concat]. rewrite aexec_nil by apply waiting_quiet, K1.
              intros Q. apply some_eq in Q. subst y. destruct K1 as (_ & _ & K1 & _). unfold abs.
              destruct (state_fn p1); exact K1 || reflexivity.
           ++ cbn [app] in Eb. injection Eb as <- Eb. intros Q. cbn [List.concat] in Q.
              rewrite aexec_app, G2 in Q. cbn [snd] in Q. rewrite ?G2 in Q. discriminate.
        -- cbn [List.concat]. rewrite aexec_app, G2. first [reflexivity | exact G2].
        -- lia.
        -- exists p', (new ++ new'). rewrite app_assoc. split; [exact C|].
           cbn [List.concat] in *. rewrite aexec_app, G1, R3. rewrite aexec_app, G2 in X.
           unfold flat. rewrite flat_map_app. fold (flat new) (flat new').
           rewrite X. reflexivity.
      * exists p1, new. split; [reflexivity|]. cbn [List.concat]. now rewrite aexec_app, G1, R.
Qed.

Lemma feed_doom h p segs :
  ok p -> bytes (List.concat segs) -> sound_cuts (abs p) segs ->
  snd (aexec (abs p) (List.concat segs)) = None ->
  exists p' log, feed true h p segs = (p', log, OFault FOverflow) /\
    aexec (abs p) (List.concat segs) = (flat log, None).
Proof.
  intros K B G D. unfold feed. destruct (client_doom h (calls segs) segs p [] K B G D) as (p' & new & H).
  - destruct segs as [|seg more]; [exact I|]. cbn [calls]. unfold measure.
    pose proof (rank_le (state_fn p)). lia.
  - exists p', new. exact H.
Qed.
