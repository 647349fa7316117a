(* A byte-by-byte automaton that does what the HTTP/2 parser does, whichever
   build and wherever the stream is cut.  Used only in proofs. *)

From Coq Require Import NArith List Bool Arith String Lia.
From Verif Require Import Bytes ByteStream Http2Model Http2Spec Http2Sem Http2Sim.
Import ListNotations.
Local Open Scope N_scope.

(* payload length decreased by l *)
Definition dec (chk : bool) (a l : N) : option N :=
  match sub32 chk (plen a) l with
  | None => None
  | Some v => Some (N.lor (pads a) (shl32 v 8))
  end.

(* In order; with only the last two bytes of the stream identifier to come; for
   ever waiting. *)
Inductive F := Run (x : A) | Low (x : A) | Stuck (s : pstate).

(* the state *)
Definition f_st (x : F) : pstate :=
  match x with Run y | Low y => a_st y | Stuck s => s end.

(* waiting for ever, with one more byte read *)
Definition onward (s : pstate) : pstate :=
  match s with
  | StGoAwayStreamId2 => StGoAwayStreamId3
  | StSettingsValue2 => StSettingsValue3
  | _ => s
  end.

Definition F0 : F := Run A0.

Definition fabs (p : parser) : F :=
  match state_fn p with
  | StFrameLength1 => F0
  | StFrameStreamId2 => Low (mkA StFrameStreamId2 (bit_data32a p) 0 (bit_data16a p) (bit_data16b p))
  | StFrameStreamId3 => Low (mkA StFrameStreamId3 (bit_data32a p) 0 (bit_data16a p) (bit_data16b p))
  | StFrameStreamId4 =>
      Low (mkA StFrameStreamId4 (bit_data32a p) (bit_data32b p) (bit_data16a p) (bit_data16b p))
  | StGoAwayStreamId2 | StGoAwayStreamId3 | StGoAwayStreamId4
  | StSettingsValue2 | StSettingsValue3 | StSettingsValue4 => Stuck (state_fn p)
  | s => Run (mkA s (bit_data32a p) (bit_data32b p) (bit_data16a p) (bit_data16b p))
  end.

(* A piece ends. *)
Definition fcut (x : F) : F :=
  match x with
  | Run (mkA s a b c d) =>
      match s with
      | StFrameStreamId2 | StFrameStreamId3 => Low (mkA s a 0 c d)
      | StFrameStreamId4 => Low (mkA s a (b mod 2 ^ 16) c d)
      | StGoAwayStreamId2 | StGoAwayStreamId3 | StSettingsValue2 | StSettingsValue3 => Stuck s
      | StGoAwayStreamId4 => Stuck StGoAwayStreamId3
      | StSettingsValue4 => Stuck StSettingsValue3
      | _ => x
      end
  | _ => x
  end.

Definition run (r : option (list fevent * A)) : option (list fevent * F) :=
  match r with Some (e, x) => Some (e, Run x) | None => None end.

(* Callbacks made without waiting for a byte. *)
Definition fpost (chk : bool) (x : F) : option (list fevent * F) :=
  match x with
  | Run (mkA StGoAwayCallback a b c d) =>
      match dec chk a 8 with
      | None => None
      | Some a' =>
          Some ([FEv (EGoAway (N.land b 2147483647) (N.lor (shl32 c 16) d))],
                if 0 <? plen a' then Run (mkA StGoAwayDebugData a' b c d) else F0)
      end
  | Run x => run (post x)
  | _ => Some ([], x)
  end.

(* Callbacks made when a byte is there, without consuming it. *)
Definition fpre1 (chk : bool) (x : F) : option (list fevent * F) :=
  match x with
  | Run (mkA StPushPromiseCallback a b c d) =>
      match dec chk a 4 with
      | None => None
      | Some a' => Some ([FEv (EPushPromise b)], Run (mkA StHeadersFragment a' b c d))
      end
  | _ => Some ([], x)
  end.

Definition fpre2 (chk : bool) (x : F) : option (list fevent * F) :=
  match x with
  | Run y =>
      match kind_of (a_st y) with
      | Some k =>
          match sub32 chk (plen (a_a y)) (pads (a_a y)) with
          | None => None
          | Some n => if n =? 0 then Some ([FEnd k], Run (after_data y (a_a y))) else Some ([], x)
          end
      | None =>
          match a_st y with
          | StFramePadding => if plen (a_a y) =? 0 then Some ([], F0) else Some ([], x)
          | _ => Some ([], x)
          end
      end
  | _ => Some ([], x)
  end.

(* One byte. *)
Definition feat (chk : bool) (x : F) (v : byte) : option (list fevent * F) :=
  match x with
  | Stuck s => Some ([], Stuck (onward s))
  | Low (mkA s a b c d) =>
      Some ([], match s with
                | StFrameStreamId2 => Low (mkA StFrameStreamId3 a 0 c d)
                | StFrameStreamId3 => Low (mkA StFrameStreamId4 a (shl32 v 8) c d)
                | _ => Run (mkA StFrameFormatEnd a (N.lor b v) c d)
                end)
  | Run (mkA s a b c d) =>
      let pad s' := match dec chk (N.lor a v) 1 with
                    | None => None
                    | Some a' => Some ([], Run (mkA s' a' b c d))
                    end in
      match s with
      | StFramePadding =>
          match dec chk a 1 with
          | None => None
          | Some a' => Some ([], if plen a' =? 0 then F0 else Run (mkA s a' b c d))
          end
      | StDataPadLength => pad StDataData
      | StHeadersPadLengthWithPriority => pad StHeadersStreamId1
      | StHeadersPadLengthWithoutPriority => pad StHeadersCallback
      | StHeadersWeight =>
          match dec chk a 5 with
          | None => None
          | Some a' => Some ([], Run (mkA StHeadersCallback a' b (shl16 v 8) d))
          end
      | StPushPromisePadLength => pad StPushPromiseStreamId1
      | StUnsupportedPadLength => pad StUnsupportedData
      | StDataData | StGoAwayDebugData | StHeadersFragment | StPingData | StUnsupportedData =>
          match kind_of s, dec chk a 1 with
          | Some k, Some a' =>
              if plen a' =? pads a' then Some ([FByte k v; FEnd k], Run (after_data (mkA s a b c d) a'))
              else Some ([FByte k v], Run (mkA s a' b c d))
          | _, _ => None
          end
      | _ => run (eat (mkA s a b c d) v)
      end
  end.

(* Observations before those of a run. *)
Definition bef (e : list fevent) (r : list fevent * option F) : list fevent * option F :=
  (e ++ fst r, snd r).

(* A run over the rest of a stream; cut tells for the number of bytes left
   whether a piece ends there. *)
Fixpoint fexec (chk : bool) (cut : nat -> bool) (x : F) (r : list byte) : list fevent * option F :=
  match fpost chk x with
  | None => ([], None)
  | Some (e, x0) =>
      bef e
      (let x1 := if cut (List.length r) then fcut x0 else x0 in
       match r with
       | [] => ([], Some x1)
       | v :: r' =>
           match fpre1 chk x1 with
           | None => ([], None)
           | Some (e1, x2) =>
               bef e1
               match fpre2 chk x2 with
               | None => ([], None)
               | Some (e2, x3) =>
                   bef e2
                   match feat chk x3 v with
                   | None => ([], None)
                   | Some (e3, x4) => bef e3 (fexec chk cut x4 r')
                   end
               end
           end
       end)
  end.

Lemma bef_nil r : bef [] r = r.
Proof. now destruct r. Qed.

Lemma bef_bef e e' r : bef e (bef e' r) = bef (e ++ e') r.
Proof. unfold bef. cbn [fst snd]. now rewrite app_assoc. Qed.

Definition fquiet (chk : bool) (x : F) : Prop := fpost chk x = Some ([], x).

Definition fready (chk : bool) (x : F) : Prop :=
  fquiet chk x /\ fpre1 chk x = Some ([], x) /\ fpre2 chk x = Some ([], x).

(* The end of a piece does not matter. *)
Definition plain (x : F) : Prop := fcut x = x.

Lemma fpost_quiet chk x e y : fpost chk x = Some (e, y) -> fquiet chk y.
Proof.
  unfold fquiet. destruct x as [[s a b c d]|x|]; cbn [fpost].
  2, 3: intros H; apply some_pair in H; destruct H as [<- <-]; reflexivity.
  destruct s; cbn [run post]; intros H; try discriminate.
  10: { apply some_pair in H; destruct H as [<- <-].
    pose proof (target_cases a c) as T. cbn [In] in T.
    repeat (destruct T as [<-|T]; [reflexivity|]). destruct T. }
  21: { destruct (dec chk a 8); [|discriminate]. apply some_pair in H; destruct H as [<- <-].
    now destruct (0 <? _). }
  all: apply some_pair in H; destruct H as [<- <-]; reflexivity.
Qed.

Lemma fexec_post chk cut x e y r : fpost chk x = Some (e, y) -> fexec chk cut x r = bef e (fexec chk cut y r).
Proof.
  intros H. pose proof (fpost_quiet _ _ _ _ H) as Q. unfold fquiet in Q.
  destruct r; cbn [fexec]; rewrite H, Q, bef_nil; reflexivity.
Qed.

Lemma fcut_quiet chk x : fquiet chk x -> fquiet chk (fcut x).
Proof.
  unfold fquiet. destruct x as [[s a b c d]|x|]; [|auto|auto]. destruct s; cbn [fcut]; auto.
Qed.

Lemma fcut_plain x : plain (fcut x).
Proof.
  unfold plain. destruct x as [[s a b c d]|x|]; [|reflexivity|reflexivity]. destruct s; reflexivity.
Qed.

Lemma fexec_cut chk cut x r :
  cut (List.length r) = true -> fquiet chk x -> fexec chk cut x r = fexec chk cut (fcut x) r.
Proof.
  intros C Q. pose proof (fcut_quiet _ _ Q) as Q'. unfold fquiet in *.
  destruct r; cbn [fexec]; rewrite Q, Q', C, fcut_plain; reflexivity.
Qed.

Lemma fexec_eat chk cut x v r e y :
  fready chk x -> cut (List.length (v :: r)) = false \/ plain x -> feat chk x v = Some (e, y) ->
  fexec chk cut x (v :: r) = bef e (fexec chk cut y r).
Proof.
  intros (Q & P1 & P2) C E. cbn [fexec]. unfold fquiet in Q. rewrite Q.
  assert ((if cut (List.length (v :: r)) then fcut x else x) = x) as ->.
  { unfold plain in C. destruct C as [->| ->]; [reflexivity|]. now destruct (cut _). }
  now rewrite P1, P2, E, !bef_nil.
Qed.

Lemma fexec_pre1 chk cut x v r e y :
  fquiet chk x -> plain x -> fpre1 chk x = Some (e, y) -> fquiet chk y -> plain y ->
  fpre1 chk y = Some ([], y) ->
  fexec chk cut x (v :: r) = bef e (fexec chk cut y (v :: r)).
Proof.
  unfold fquiet, plain. intros Q C P Q' C' P'. cbn [fexec].
  rewrite Q, Q', C, C'. destruct (cut _); now rewrite P, P', !bef_nil.
Qed.

Lemma fexec_pre2 chk cut x v r e y :
  fquiet chk x -> plain x -> fpre1 chk x = Some ([], x) -> fpre2 chk x = Some (e, y) ->
  fready chk y -> plain y ->
  fexec chk cut x (v :: r) = bef e (fexec chk cut y (v :: r)).
Proof.
  unfold fready, fquiet, plain. intros Q C P P2 (Q' & P' & P2') C'. cbn [fexec].
  rewrite Q, Q', C, C'. destruct (cut _); now rewrite P, P', P2, P2', !bef_nil.
Qed.

(* Nothing left. *)
Lemma fexec_nil chk cut x : fquiet chk x -> plain x -> fexec chk cut x [] = ([], Some x).
Proof. unfold fquiet, plain. intros Q C. cbn [fexec]. rewrite Q, C. now destruct (cut _). Qed.

Lemma fexec_nil' chk cut x : fquiet chk x -> exists y, fexec chk cut x [] = ([], Some y) /\ (y = x \/ y = fcut x).
Proof.
  unfold fquiet. intros Q. cbn [fexec]. rewrite Q. eexists. rewrite bef_nil. split; [reflexivity|].
  destruct (cut _); auto.
Qed.

Lemma stuck_exec chk cut r : forall s,
  fexec chk cut (Stuck s) r = ([], Some (Stuck (match r with [] => s | _ => onward s end))).
Proof.
  induction r as [|v r IH]; intros s.
  - apply fexec_nil; reflexivity.
  - rewrite (fexec_eat chk cut (Stuck s) v r [] (Stuck (onward s))).
    + rewrite IH, bef_nil. destruct r; [reflexivity|]. now destruct s.
    + repeat split.
    + now right.
    + reflexivity.
Qed.

(* ------------------------------------------------------------------ *)
(* Lengths                                                              *)
(* ------------------------------------------------------------------ *)

Lemma dec_enc chk l z n : l < 2 ^ 24 -> z < 256 -> n <= l -> dec chk (enc l z) n = Some (enc (l - n) z).
Proof.
  intros L Z H. unfold dec. rewrite plen_enc, pads_enc by assumption.
  rewrite sub32_ok by assumption. f_equal. apply enc_lor; [lia|assumption].
Qed.

Lemma shl32_wrap l n : l < 2 ^ 24 -> n <= 2 ^ 24 -> l < n ->
  shl32 (u32 (l + 2 ^ 32 - n)) 8 = shl32 (2 ^ 24 + l - n) 8.
Proof.
  intros L N H. unfold shl32. rewrite !N.shiftl_mul_pow2. unfold u32.
  assert (2 ^ 24 < 2 ^ 32) as T by reflexivity.
  rewrite (N.mod_small (l + 2 ^ 32 - n)) by lia.
  replace ((l + 2 ^ 32 - n) * 2 ^ 8) with ((2 ^ 24 + l - n) * 2 ^ 8 + 255 * 2 ^ 32).
  - rewrite N.mod_add by discriminate. reflexivity.
  - change (2 ^ 32) with (256 * 2 ^ 24). change (2 ^ 8) with 256. lia.
Qed.

Lemma dec_wrap l z n : l < 2 ^ 24 -> z < 256 -> l < n -> n <= 2 ^ 24 ->
  dec false (enc l z) n = Some (enc (2 ^ 24 + l - n) z).
Proof.
  intros L Z H N. unfold dec. rewrite plen_enc, pads_enc by assumption. unfold sub32.
  destruct (N.leb_spec n l); [lia|]. f_equal. rewrite shl32_wrap by assumption.
  apply enc_lor; [lia|assumption].
Qed.

Lemma dec_over l z n : z < 256 -> l < n -> dec true (enc l z) n = None.
Proof.
  intros Z H. unfold dec. rewrite plen_enc by assumption. unfold sub32.
  destruct (N.leb_spec n l); [lia|reflexivity].
Qed.

(* ------------------------------------------------------------------ *)
(* Data                                                                 *)
(* ------------------------------------------------------------------ *)

(* The stored length when n bytes of data and z of padding are to come. *)
Definition len24 (n z : N) : N := if n + z <? 2 ^ 24 then n + z else n + z - 2 ^ 24.

Lemma len24_lt n z : n < 2 ^ 24 -> z < 256 -> len24 n z < 2 ^ 24.
Proof.
  intros N Z. assert (256 < 2 ^ 24) by reflexivity. unfold len24. destruct (N.ltb_spec (n + z) (2 ^ 24)); lia.
Qed.

(* The build has to be unchecked for a length that has wrapped around. *)
Definition fits (chk : bool) (n z : N) : Prop := chk = true -> n + z < 2 ^ 24.

Lemma fits_less chk n m z : fits chk n z -> m <= n -> fits chk m z.
Proof. unfold fits. intros H L C. specialize (H C). lia. Qed.

Lemma sub_len24 chk n z : n < 2 ^ 24 -> z < 256 -> fits chk n z ->
  exists m, sub32 chk (len24 n z) z = Some m /\ (m =? 0) = (n =? 0).
Proof.
  intros N Z H. assert (2 ^ 24 < 2 ^ 32) as T by reflexivity. assert (256 < 2 ^ 24) as T2 by reflexivity.
  unfold len24, sub32. destruct (N.ltb_spec (n + z) (2 ^ 24)) as [L|L].
  - destruct (N.leb_spec z (n + z)); [|lia]. eexists. split; [reflexivity|]. f_equal. lia.
  - destruct (N.leb_spec z (n + z - 2 ^ 24)); [lia|].
    destruct chk; [specialize (H eq_refl); lia|]. eexists. split; [reflexivity|].
    unfold u32. rewrite N.mod_small by lia.
    destruct (N.eqb_spec (n + z - 2 ^ 24 + 2 ^ 32 - z) 0), (N.eqb_spec n 0); try reflexivity; lia.
Qed.

Lemma dec_len24 chk n z : n < 2 ^ 24 -> z < 256 -> fits chk n z -> 0 < n ->
  dec chk (enc (len24 n z) z) 1 = Some (enc (len24 (n - 1) z) z).
Proof.
  intros N Z H P. assert (2 ^ 24 < 2 ^ 32) as T by reflexivity. assert (256 < 2 ^ 24) as T2 by reflexivity.
  unfold len24. destruct (N.ltb_spec (n + z) (2 ^ 24)) as [L|L].
  - rewrite dec_enc by (assumption || lia). destruct (N.ltb_spec (n - 1 + z) (2 ^ 24)); [|lia].
    do 2 f_equal. lia.
  - destruct chk; [specialize (H eq_refl); lia|].
    destruct (N.ltb_spec (n - 1 + z) (2 ^ 24)) as [M|M].
    + rewrite dec_wrap by (assumption || lia || discriminate). do 2 f_equal. lia.
    + rewrite dec_enc by (assumption || lia). do 2 f_equal. lia.
Qed.

Lemma len24_z n z : n < 2 ^ 24 -> z < 256 -> (len24 n z =? z) = (n =? 0).
Proof.
  intros N Z. unfold len24. destruct (N.ltb_spec (n + z) (2 ^ 24)) as [L|L];
    [destruct (N.eqb_spec (n + z) z), (N.eqb_spec n 0)|
     destruct (N.eqb_spec (n + z - 2 ^ 24) z), (N.eqb_spec n 0)]; try reflexivity; lia.
Qed.

Lemma fkind_quiet chk s k a b c d : kind_of s = Some k -> fquiet chk (Run (mkA s a b c d)).
Proof. destruct s; cbn; try discriminate; reflexivity. Qed.

Lemma fkind_plain s k a b c d : kind_of s = Some k -> plain (Run (mkA s a b c d)).
Proof. destruct s; cbn; try discriminate; reflexivity. Qed.

Lemma fkind_pre1 chk s k a b c d :
  kind_of s = Some k -> fpre1 chk (Run (mkA s a b c d)) = Some ([], Run (mkA s a b c d)).
Proof. destruct s; cbn; try discriminate; reflexivity. Qed.

Lemma fkind_pre2 chk s k a b c d :
  kind_of s = Some k ->
  fpre2 chk (Run (mkA s a b c d)) =
  match sub32 chk (plen a) (pads a) with
  | None => None
  | Some n => if n =? 0 then Some ([FEnd k], Run (after_data (mkA s a b c d) a))
              else Some ([], Run (mkA s a b c d))
  end.
Proof. intros K. unfold fpre2. cbn [a_st a_a]. now rewrite K. Qed.

Lemma fkind_eat chk s k a b c d v :
  kind_of s = Some k ->
  feat chk (Run (mkA s a b c d)) v =
  match dec chk a 1 with
  | Some a' =>
      if plen a' =? pads a' then Some ([FByte k v; FEnd k], Run (after_data (mkA s a b c d) a'))
      else Some ([FByte k v], Run (mkA s a' b c d))
  | None => None
  end.
Proof.
  destruct s; cbn [kind_of]; try discriminate; intros K; injection K as <-; reflexivity.
Qed.

Lemma fkind_ready chk s k n z b c d :
  kind_of s = Some k -> n < 2 ^ 24 -> z < 256 -> fits chk n z -> 0 < n ->
  fready chk (Run (mkA s (enc (len24 n z) z) b c d)).
Proof.
  intros K N Z H P. split; [|split].
  - exact (fkind_quiet _ _ _ _ _ _ _ K).
  - exact (fkind_pre1 _ _ _ _ _ _ _ K).
  - rewrite (fkind_pre2 _ _ _ _ _ _ _ K), plen_enc, pads_enc by assumption.
    destruct (sub_len24 chk n z N Z H) as (m & -> & ->).
    destruct (N.eqb_spec n 0); [lia|reflexivity].
Qed.

(* Some, but not all of the data. *)
Lemma fexec_data chk cut s k b c d z r : kind_of s = Some k -> z < 256 -> forall x n,
  n < 2 ^ 24 -> fits chk n z -> N.of_nat (List.length x) < n ->
  fexec chk cut (Run (mkA s (enc (len24 n z) z) b c d)) (x ++ r) =
  bef (map (FByte k) x)
    (fexec chk cut (Run (mkA s (enc (len24 (n - N.of_nat (List.length x)) z) z) b c d)) r).
Proof.
  intros K Z. induction x as [|v x IH]; intros n N H L.
  - cbn [app map List.length]. rewrite bef_nil. now rewrite N.sub_0_r.
  - cbn [List.length] in L. cbn [app map].
    rewrite (fexec_eat chk cut _ v (x ++ r) [FByte k v] (Run (mkA s (enc (len24 (n - 1) z) z) b c d))).
    + rewrite IH by (try apply (fits_less chk n); assumption || lia). rewrite bef_bef. cbn [app List.length].
      do 5 f_equal. f_equal. lia.
    + apply (fkind_ready chk _ _ _ _ _ _ _ K N Z H). lia.
    + right. exact (fkind_plain _ _ _ _ _ _ K).
    + rewrite (fkind_eat _ _ _ _ _ _ _ _ K), dec_len24 by (assumption || lia).
      rewrite plen_enc, pads_enc, len24_z by (assumption || lia).
      destruct (N.eqb_spec (n - 1) 0); [lia|reflexivity].
Qed.

Definition fdone (z b c d : N) : F := Run (done z b c d).

Lemma fready_0 chk : fready chk F0.
Proof. repeat split. Qed.

Lemma fpad_ready chk l z b c d : z < 256 -> 0 < l -> fready chk (Run (mkA StFramePadding (enc l z) b c d)).
Proof.
  intros Z L. repeat split. unfold fpre2. cbn [kind_of a_st a_a]. rewrite plen_enc by assumption.
  destruct (N.eqb_spec l 0); [lia|reflexivity].
Qed.

Lemma fdone_ready chk z b c d : z < 256 -> fready chk (fdone z b c d).
Proof.
  intros Z. unfold fdone, done. destruct (N.ltb_spec 0 z); [|exact (fready_0 chk)]. now apply fpad_ready.
Qed.

Lemma fdone_plain z b c d : plain (fdone z b c d).
Proof. unfold fdone, done. now destruct (0 <? z). Qed.

Lemma len24_0 z : z < 256 -> len24 0 z = z.
Proof.
  intros Z. assert (256 < 2 ^ 24) by reflexivity. unfold len24. destruct (N.ltb_spec (0 + z) (2 ^ 24)); lia.
Qed.

(* All of the data. *)
Lemma fexec_data_end chk cut s k b c d z r x n :
  kind_of s = Some k -> z < 256 -> n < 2 ^ 24 -> fits chk n z -> n = N.of_nat (List.length x) ->
  x ++ r <> [] ->
  fexec chk cut (Run (mkA s (enc (len24 n z) z) b c d)) (x ++ r) =
  bef (map (FByte k) x ++ [FEnd k]) (fexec chk cut (fdone z b c d) r).
Proof.
  intros K Z N H E NE. destruct x as [|v x] using rev_ind.
  - cbn [app map List.length] in *. destruct r as [|v r]; [congruence|].
    change (N.of_nat 0) with 0 in E. subst n.
    apply fexec_pre2.
    + exact (fkind_quiet _ _ _ _ _ _ _ K).
    + exact (fkind_plain _ _ _ _ _ _ K).
    + exact (fkind_pre1 _ _ _ _ _ _ _ K).
    + rewrite (fkind_pre2 _ _ _ _ _ _ _ K), plen_enc, pads_enc by assumption.
      destruct (sub_len24 chk 0 z N Z H) as (m & -> & ->). cbn [N.eqb].
      rewrite len24_0, after_data_enc by assumption. reflexivity.
    + now apply fdone_ready.
    + apply fdone_plain.
  - clear IHx. rewrite app_length in E. cbn [List.length] in E. rewrite <- app_assoc.
    rewrite (fexec_data chk cut _ k) by (assumption || lia).
    rewrite map_app, <- app_assoc, <- bef_bef. f_equal.
    cbn [map app]. replace (n - N.of_nat (List.length x)) with 1 by lia.
    apply fexec_eat.
    + apply (fkind_ready chk _ _ _ _ _ _ _ K); try assumption; try reflexivity.
      apply (fits_less chk n); [assumption|lia].
    + right. exact (fkind_plain _ _ _ _ _ _ K).
    + rewrite (fkind_eat _ _ _ _ _ _ _ _ K), dec_len24; try assumption; try reflexivity.
      * change (1 - 1) with 0. rewrite len24_0, plen_enc, pads_enc by assumption.
        rewrite N.eqb_refl. now rewrite after_data_enc.
      * apply (fits_less chk n); [assumption|lia].
Qed.

(* Some, but not all of the padding. *)
Lemma fexec_pad chk cut b c d z r : z < 256 -> forall x l,
  l < 2 ^ 24 -> N.of_nat (List.length x) < l ->
  fexec chk cut (Run (mkA StFramePadding (enc l z) b c d)) (x ++ r) =
  fexec chk cut (Run (mkA StFramePadding (enc (l - N.of_nat (List.length x)) z) b c d)) r.
Proof.
  intros Z. induction x as [|v x IH]; intros l L H.
  - cbn [app List.length]. now rewrite N.sub_0_r.
  - cbn [List.length] in H. cbn [app].
    rewrite (fexec_eat chk cut _ v (x ++ r) [] (Run (mkA StFramePadding (enc (l - 1) z) b c d))).
    + rewrite bef_nil. rewrite IH by lia. cbn [List.length]. do 4 f_equal. lia.
    + apply fpad_ready; [assumption|lia].
    + now right.
    + unfold feat. rewrite dec_enc by (assumption || lia). rewrite plen_enc by assumption.
      destruct (N.eqb_spec (l - 1) 0); [lia|reflexivity].
Qed.

(* All of the padding. *)
Lemma fexec_pad_end chk cut b c d z r x l :
  z < 256 -> l < 2 ^ 24 -> l = N.of_nat (List.length x) -> x ++ r <> [] ->
  fexec chk cut (Run (mkA StFramePadding (enc l z) b c d)) (x ++ r) = fexec chk cut F0 r.
Proof.
  intros Z L H NE. destruct x as [|v x] using rev_ind.
  - cbn [app List.length] in *. destruct r as [|v r]; [congruence|].
    rewrite <- (bef_nil (fexec chk cut F0 (v :: r))). apply fexec_pre2; try reflexivity.
    + unfold fpre2. cbn [kind_of a_st a_a]. rewrite plen_enc by assumption.
      subst l. reflexivity.
    + exact (fready_0 chk).
  - clear IHx. rewrite app_length in H. cbn [List.length] in H. rewrite <- app_assoc.
    rewrite fexec_pad by (assumption || lia).
    replace (l - N.of_nat (List.length x)) with 1 by lia. cbn [app].
    rewrite <- (bef_nil (fexec chk cut F0 r)). apply fexec_eat.
    + apply fpad_ready; [assumption|lia].
    + now right.
    + unfold feat. rewrite dec_enc by (assumption || lia). rewrite plen_enc by assumption.
      reflexivity.
Qed.
