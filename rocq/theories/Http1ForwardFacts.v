(* What is passed on by the writers of Http1Forward.v is read the same. *)

From Coq Require Import NArith List Bool Arith String Lia.
From Verif Require Import Bytes Http1Model Http1Spec Http1Protocol Http1Wire Http1Accept
  Http1Parse Http1Parse2 Http1Parse3 Http1Parse4 Http1Forward.
Import ListNotations.
Local Open Scope N_scope.

Ltac flatten := repeat progress (rewrite <- ?app_assoc; cbn [app]).

Definition ends (s : said) (l : list fevent) : said := fold_left (fun _ ev => after ev) l s.

Lemma write_app t : forall l s l', write t s (l ++ l') = write t s l ++ write t (ends s l) l'.
Proof. induction l as [|ev l IH]; intros s l'; [reflexivity|]. cbn [app write ends fold_left]. now rewrite IH, <- app_assoc. Qed.

Lemma ends_app s l l' : ends s (l ++ l') = ends (ends s l) l'.
Proof. apply fold_left_app. Qed.

(* Bytes that are written as they are. *)
Lemma write_more t k (f : byte -> list byte) : (forall b, t (Byte k) (FByte k b) = f b) ->
  forall d, write t (Byte k) (map (FByte k) d) = flat_map f d /\ ends (Byte k) (map (FByte k) d) = Byte k.
Proof.
  intros T. induction d as [|b d [IH1 IH2]]; [split; reflexivity|].
  cbn [map write after ends fold_left flat_map]. fold (ends (Byte k) (map (FByte k) d)). now rewrite T, IH1, IH2.
Qed.

Lemma write_some t k (f : byte -> list byte) s : (forall b, t (Byte k) (FByte k b) = f b) ->
  forall b d, write t s (map (FByte k) (b :: d)) = t s (FByte k b) ++ flat_map f d /\
              ends s (map (FByte k) (b :: d)) = Byte k.
Proof.
  intros T b d. destruct (write_more t k f T d) as [E1 E2]. cbn [map write after ends fold_left].
  fold (ends (Byte k) (map (FByte k) d)). now rewrite E1, E2.
Qed.

Lemma flat_one (d : list byte) : flat_map (fun b => [b]) d = d.
Proof. induction d; cbn; congruence. Qed.

(* ------------------------------------------------------------------ *)
(* Header fields                                                        *)
(* ------------------------------------------------------------------ *)

Lemma lower_twice b : lower_case (lower_case b) = lower_case b.
Proof.
  unfold lower_case at 2 3. destruct ((65 <=? b) && (b <=? 90)) eqn:E; [|unfold lower_case; now rewrite E].
  apply andb_true_iff in E. rewrite !N.leb_le in E. unfold lower_case.
  replace (b + 32 <=? 90) with false by (symmetry; apply N.leb_gt; lia). now rewrite andb_false_r.
Qed.

Lemma lower_all n : map lower_case (map lower_case n) = map lower_case n.
Proof. rewrite map_map. apply map_ext. intros b. apply lower_twice. Qed.

Lemma tchar_lowered b : tchar b = true -> tchar (lower_case b) = true.
Proof.
  unfold lower_case. destruct ((65 <=? b) && (b <=? 90)) eqn:E; [|trivial].
  intros _. apply andb_true_iff in E. rewrite !N.leb_le in E. unfold tchar.
  replace ((97 <=? b + 32) && (b + 32 <=? 122)) with true; [now rewrite !orb_true_r|].
  symmetry. rewrite andb_true_iff, !N.leb_le. lia.
Qed.

Lemma tchars_lowered n : Forall (fun b => tchar b = true) n -> Forall (fun b => tchar b = true) (map lower_case n).
Proof. induction 1; constructor; auto using tchar_lowered. Qed.

Lemma text_ok_app v' : field_text_ok Plain v' = true ->
  forall v m, field_text_ok m v = true -> field_text_ok m (v ++ v') = true.
Proof.
  intros H'. induction v as [|b v IH]; intros m H; [destruct m; [exact H'|discriminate|discriminate]|].
  cbn [app field_text_ok] in *. destruct m.
  - destruct (b =? 34); [auto|]. apply andb_true_iff in H. rewrite andb_true_iff. intuition.
  - destruct (b =? 34); [auto|]. destruct (b =? 92); [auto|]. apply andb_true_iff in H. rewrite andb_true_iff. intuition.
  - apply andb_true_iff in H. rewrite andb_true_iff. intuition.
Qed.

(* Header lines: a value without name, and fields. *)
Definition good_field (f : list byte * list byte) : Prop :=
  fst f <> [] /\ Forall (fun b => tchar b = true) (fst f) /\ map lower_case (fst f) = fst f /\
  starts_visible (snd f) /\ field_text_ok Plain (snd f) = true.
Definition field_seen (f : list byte * list byte) : list fevent :=
  map (FByte KHeaderName) (fst f) ++ map (FByte KHeaderValue) (snd f).
Definition field_line (f : list byte * list byte) : list byte := fst f ++ [58; 32] ++ snd f ++ crlf.

Lemma lines_normal x e : lines_as x e -> exists v fs,
  e = map (FByte KHeaderValue) v ++ flat_map field_seen fs ++ [FEv EHeadersFinished] /\
  field_text_ok Plain v = true /\ Forall good_field fs.
Proof.
  induction 1 as [|w e w' e' L _ (v' & fs & -> & V & F)].
  - exists [], []. split; [reflexivity|]. split; [reflexivity|constructor].
  - destruct L as [n p v N P S T|c v C T].
    + destruct n as [|c n].
      * exists (v ++ v'), fs. cbn [map app]. rewrite map_app, <- app_assoc. split; [reflexivity|].
        split; [now apply text_ok_app|exact F].
      * exists [], ((map lower_case (c :: n), v ++ v') :: fs). split; [|split; [reflexivity|]].
        { cbn [map app flat_map field_seen fst snd]. unfold field_seen. cbn [fst snd map].
          rewrite map_app, <- !app_assoc. reflexivity. }
        constructor; [|exact F]. unfold good_field. cbn [fst snd]. split; [discriminate|].
        split; [now apply tchars_lowered|]. split; [apply lower_all|].
        split; [destruct v; [contradiction|exact S]|now apply text_ok_app].
    + exists (v ++ v'), fs. rewrite map_app, <- app_assoc. split; [reflexivity|]. split; [now apply text_ok_app|exact F].
Qed.

Definition fieldb (ev : fevent) : bool :=
  match ev with FByte KHeaderName _ | FByte KHeaderValue _ | FEv EHeadersFinished => true | _ => false end.

Section Fields.
  Variable t : writer.
  Hypothesis Tname : forall ev, fieldb ev = true -> t (Byte KHeaderName) ev = field_text (Byte KHeaderName) ev.
  Hypothesis Tvalue : forall ev, fieldb ev = true -> t (Byte KHeaderValue) ev = field_text (Byte KHeaderValue) ev.

  Lemma write_value s b d : write t s (map (FByte KHeaderValue) (b :: d)) = t s (FByte KHeaderValue b) ++ d /\
    ends s (map (FByte KHeaderValue) (b :: d)) = Byte KHeaderValue.
  Proof.
    destruct (write_some t KHeaderValue (fun b => [b]) s (fun b => Tvalue (FByte KHeaderValue b) eq_refl) b d) as [-> ->].
    now rewrite flat_one.
  Qed.

  Lemma write_name s b d : write t s (map (FByte KHeaderName) (b :: d)) = t s (FByte KHeaderName b) ++ d /\
    ends s (map (FByte KHeaderName) (b :: d)) = Byte KHeaderName.
  Proof.
    destruct (write_some t KHeaderName (fun b => [b]) s (fun b => Tname (FByte KHeaderName b) eq_refl) b d) as [-> ->].
    now rewrite flat_one.
  Qed.

  (* After a value, the line is ended first. *)
  Lemma fields_after_value fs : Forall good_field fs ->
    write t (Byte KHeaderValue) (flat_map field_seen fs ++ [FEv EHeadersFinished]) =
    crlf ++ flat_map field_line fs ++ crlf.
  Proof.
    induction 1 as [|[n v] fs (G1 & G2 & G3 & G4 & G5) _ IH].
    - cbn [flat_map app write]. rewrite Tvalue by reflexivity. reflexivity.
    - cbn [fst snd] in *. destruct n as [|c n]; [congruence|]. destruct v as [|b v]; [contradiction|].
      cbn [flat_map]. unfold field_seen at 1. cbn [fst snd]. rewrite <- !app_assoc, !write_app.
      destruct (write_name (Byte KHeaderValue) c n) as [-> ->].
      destruct (write_value (Byte KHeaderName) b v) as [-> ->]. rewrite write_app in IH. rewrite IH.
      rewrite Tname, Tvalue by reflexivity. cbn [field_text]. change (field_line (c :: n, b :: v)) with ((c :: n) ++ [58; 32] ++ (b :: v) ++ crlf).
      flatten. reflexivity.
  Qed.

  (* At the beginning, in the state s; pre is written in front. *)
  Variables (s : said) (pre : list byte).
  Hypothesis Tfirst : forall ev, fieldb ev = true -> t s ev = pre ++ field_text Nothing ev.

  Lemma fields_first fs : Forall good_field fs ->
    write t s (flat_map field_seen fs ++ [FEv EHeadersFinished]) = pre ++ flat_map field_line fs ++ crlf.
  Proof.
    destruct 1 as [|[n v] fs (G1 & G2 & G3 & G4 & G5) F].
    - cbn [flat_map app write]. rewrite Tfirst by reflexivity. cbn [field_text]. now rewrite app_nil_r.
    - cbn [fst snd] in *. destruct n as [|c n]; [congruence|]. destruct v as [|b v]; [contradiction|].
      cbn [flat_map]. unfold field_seen at 1. cbn [fst snd]. rewrite <- !app_assoc.
      rewrite write_app. destruct (write_name s c n) as [-> ->].
      rewrite write_app. destruct (write_value (Byte KHeaderName) b v) as [-> ->].
      rewrite (fields_after_value _ F).
      rewrite Tfirst, Tname by reflexivity. cbn [field_text]. change (field_line (c :: n, b :: v)) with ((c :: n) ++ [58; 32] ++ (b :: v) ++ crlf).
      flatten. reflexivity.
  Qed.

  Lemma fields_written v fs : Forall good_field fs ->
    write t s (map (FByte KHeaderValue) v ++ flat_map field_seen fs ++ [FEv EHeadersFinished]) =
    pre ++ match v with [] => [] | _ => 32 :: v ++ crlf end ++ flat_map field_line fs ++ crlf.
  Proof.
    intros F. destruct v as [|b v]; [now apply fields_first|].
    rewrite write_app. destruct (write_value s b v) as [-> ->]. rewrite (fields_after_value _ F).
    rewrite Tfirst by reflexivity. cbn [field_text]. flatten. reflexivity.
  Qed.

  Lemma ends_fields v fs :
    ends s (map (FByte KHeaderValue) v ++ flat_map field_seen fs ++ [FEv EHeadersFinished]) = Did EHeadersFinished.
  Proof. now rewrite !ends_app. Qed.
End Fields.

Lemma good_lines fs : Forall good_field fs ->
  lines_as (flat_map field_line fs ++ crlf) (flat_map field_seen fs ++ [FEv EHeadersFinished]).
Proof.
  induction 1 as [|[n v] fs (G1 & G2 & G3 & G4 & G5) _ IH]; [exact lines_end|]. cbn [fst snd] in *.
  cbn [flat_map]. rewrite <- !app_assoc. apply lines_line; [|exact IH].
  pose proof (line_field n [32] v G2 ltac:(repeat constructor) G4 G5) as X. rewrite G3 in X. exact X.
Qed.

Lemma good_all v fs : field_text_ok Plain v = true -> Forall good_field fs ->
  lines_as (match v with [] => [] | _ => 32 :: v ++ crlf end ++ flat_map field_line fs ++ crlf)
           (map (FByte KHeaderValue) v ++ flat_map field_seen fs ++ [FEv EHeadersFinished]).
Proof.
  intros V F. destruct v as [|b v]; [now apply good_lines|]. apply lines_line; [|now apply good_lines].
  apply line_more; auto.
Qed.

(* All together. *)
Lemma lines_written t s pre x e :
  (forall ev, fieldb ev = true -> t (Byte KHeaderName) ev = field_text (Byte KHeaderName) ev) ->
  (forall ev, fieldb ev = true -> t (Byte KHeaderValue) ev = field_text (Byte KHeaderValue) ev) ->
  (forall ev, fieldb ev = true -> t s ev = pre ++ field_text Nothing ev) ->
  lines_as x e -> exists x', write t s e = pre ++ x' /\ lines_as x' e /\ ends s e = Did EHeadersFinished.
Proof.
  intros T1 T2 T3 L. destruct (lines_normal _ _ L) as (v & fs & -> & V & F). eexists.
  split; [exact (fields_written t T1 T2 s pre T3 v fs F)|]. split; [now apply good_all|apply ends_fields].
Qed.

(* ------------------------------------------------------------------ *)
(* Heads                                                                *)
(* ------------------------------------------------------------------ *)

Ltac fieldb_cases ev := destruct ev as [k b|e0]; [destruct k; try discriminate; reflexivity|destruct e0; try discriminate; reflexivity].

Lemma dec3 a b c : a < 10 -> b < 10 -> c < 10 -> decimal [48 + a; 48 + b; 48 + c] = 100 * a + 10 * b + c.
Proof.
  intros. unfold decimal, fold_left. rewrite !(N.add_comm 48), !N.add_sub. lia.
Qed.
Lemma dec2 a b : a < 10 -> b < 10 -> decimal [48 + a; 48 + b] = 10 * a + b.
Proof.
  intros. unfold decimal, fold_left. rewrite !(N.add_comm 48), !N.add_sub. lia.
Qed.
Lemma digit_val n : n < 10 -> digit (48 + n).
Proof. unfold digit. lia. Qed.
Ltac digs := repeat (first [apply Forall_nil | apply Forall_cons; [now apply digit_val|]]).

Lemma ten_ok n : n < 1000 ->
  decimal (ten n) = n /\ (1 <= List.length (ten n) <= 3)%nat /\ Forall digit (ten n).
Proof.
  intros B. unfold ten. destruct (N.ltb_spec n 10) as [A|A]; [|destruct (N.ltb_spec n 100) as [C|C]].
  - split; [unfold decimal, fold_left; lia|]. split; [cbn; lia|digs].
  - assert (n / 10 < 10) by (apply N.div_lt_upper_bound; lia). pose proof (N.mod_lt n 10 ltac:(lia)).
    split; [|split; [cbn; lia|digs]].
    rewrite dec2 by assumption. symmetry. apply N.div_mod. lia.
  - assert (n / 100 < 10) by (apply N.div_lt_upper_bound; lia). pose proof (N.mod_lt n 10 ltac:(lia)).
    pose proof (N.mod_lt (n / 10) 10 ltac:(lia)).
    split; [|split; [cbn; lia|digs]].
    rewrite dec3 by assumption. pose proof (N.div_mod n 10 ltac:(lia)) as D1.
    pose proof (N.div_mod (n / 10) 10 ltac:(lia)) as D2. rewrite N.div_div in D2 by lia. change (10 * 10) with 100 in D2. revert D1 D2. generalize (n / 10) (n / 100) (n mod 10) (n / 10 mod 10). intros; lia.
Qed.

Lemma three_ok n : n < 1000 ->
  decimal (three n) = n /\ List.length (three n) = 3%nat /\ Forall digit (three n).
Proof.
  intros B. assert (n / 100 < 10) by (apply N.div_lt_upper_bound; lia). pose proof (N.mod_lt n 10 ltac:(lia)).
  pose proof (N.mod_lt (n / 10) 10 ltac:(lia)). unfold three.
  split; [|split; [reflexivity|digs]].
  rewrite dec3 by assumption. pose proof (N.div_mod n 10 ltac:(lia)) as D1.
  pose proof (N.div_mod (n / 10) 10 ltac:(lia)) as D2. rewrite N.div_div in D2 by lia. change (10 * 10) with 100 in D2. revert D1 D2. generalize (n / 10) (n / 100) (n mod 10) (n / 10 mod 10). intros; lia.
Qed.

Lemma decimal_bound ds : (List.length ds <= 3)%nat -> Forall digit ds -> decimal ds < 1000.
Proof.
  intros L F. destruct ds as [|a [|b [|c [|d ds]]]]; cbn in L; try lia; unfold decimal; cbn [fold_left];
  repeat match goal with H : Forall _ (_ :: _) |- _ => inversion H; clear H; subst end; unfold digit in *; lia.
Qed.

Lemma version_written v : wf_version v -> exists v', wf_version v' /\ seen_version v' = seen_version v /\
  render_version v' = bs "HTTP/" ++ ten (decimal (fst v)) ++ [46] ++ ten (decimal (snd v)).
Proof.
  intros (A & B & C & D). exists (ten (decimal (fst v)), ten (decimal (snd v))).
  destruct (ten_ok (decimal (fst v)) (decimal_bound _ (proj2 A) B)) as (X1 & X2 & X3).
  destruct (ten_ok (decimal (snd v)) (decimal_bound _ (proj2 C) D)) as (Y1 & Y2 & Y3).
  split; [repeat split; cbn [fst snd]; tauto|]. split; [|reflexivity].
  unfold seen_version. cbn [fst snd]. now rewrite X1, Y1.
Qed.

Lemma write_method m u : m <> [] -> u <> [] ->
  write head_text Nothing (map (FByte KMethod) m ++ map (FByte KUrl) u) = m ++ [32] ++ u /\
  ends Nothing (map (FByte KMethod) m ++ map (FByte KUrl) u) = Byte KUrl.
Proof.
  intros M U. destruct m as [|c m]; [congruence|]. destruct u as [|d u]; [congruence|]. rewrite write_app, ends_app.
  destruct (write_some head_text KMethod (fun b => [b]) Nothing (fun b => eq_refl) c m) as [-> ->].
  destruct (write_some head_text KUrl (fun b => [b]) (Byte KMethod) (fun b => eq_refl) d u) as [-> ->].
  now rewrite !flat_one.
Qed.

(* What is written for a head; x is what is written for its lines. *)
Lemma head_written_parts w L : head_as w L -> exists e x,
  lines_as x e /\
  ((exists m u v, m <> [] /\ Forall (fun b : byte => 65 <= b <= 90) m /\ u <> [] /\
     Forall (fun b => visible_byte b = true) u /\ wf_version v /\
     L = map (FByte KMethod) m ++ map (FByte KUrl) u ++ [seen_version v; FEv EInitialFinished] ++ e /\
     write head_text Nothing L = m ++ [32] ++ u ++ [32] ++ render_version v ++ crlf ++
       write head_text (Did EInitialFinished) e) \/
   (exists v c u, wf_version v /\ List.length c = 3%nat /\ Forall digit c /\ u <> [] /\
     Forall (fun b : byte => 32 <= b /\ b <> 127) u /\
     L = [seen_version v; FEv (EStatusCode (decimal c))] ++ map (FByte KStatus) u ++ [FEv EInitialFinished] ++ e /\
     write head_text Nothing L = render_version v ++ [32] ++ c ++ [32] ++ u ++ crlf ++
       write head_text (Did EInitialFinished) e)).
Proof.
  destruct 1 as [w m u v x e B M1 M2 U1 U2 V X|w v c u x e B V C1 C2 U1 U2 X].
  - exists e, x. split; [exact X|]. left. destruct (version_written v V) as (v' & V1 & V2 & V3).
    exists m, u, v'. rewrite V2, V3. repeat (split; [assumption|]). split; [reflexivity|].
    rewrite app_assoc, write_app. destruct (write_method m u M1 U1) as [-> ->].
    cbn [app write after head_text seen_version]. flatten. reflexivity.
  - exists e, x. split; [exact X|]. right. destruct (version_written v V) as (v' & V1 & V2 & V3).
    destruct (three_ok (decimal c) (decimal_bound c (Nat.eq_le_incl _ _ C1) C2)) as (D1 & D2 & D3).
    exists v', (three (decimal c)), u. rewrite V2, V3, D1. repeat (split; [assumption|]). split; [reflexivity|].
    cbn [app write after seen_version]. rewrite write_app. destruct u as [|b u]; [congruence|].
    destruct (write_some head_text KStatus (fun b => [b]) (Did (EStatusCode (decimal c))) (fun b => eq_refl) b u) as [-> ->].
    rewrite flat_one. unfold seen_version. cbn [head_text field_text write after]. flatten. reflexivity.
Qed.

Lemma head_lines_written x e : lines_as x e ->
  exists x', write head_text (Did EInitialFinished) e = x' /\ lines_as x' e.
Proof.
  intros X. destruct (lines_written head_text (Did EInitialFinished) [] x e) as (x' & E & L & _);
    [intros ev; fieldb_cases ev|intros ev; fieldb_cases ev|intros ev; fieldb_cases ev|exact X|].
  now exists x'.
Qed.

Lemma head_again w L : head_as w L -> head_as (write head_text Nothing L) L.
Proof.
  intros H. destruct (head_written_parts _ _ H) as (e & x & X & [(m & u & v & A1 & A2 & A3 & A4 & A5 & A6 & A7)|
    (v & c & u & A1 & A2 & A3 & A4 & A5 & A6 & A7)]);
    destruct (head_lines_written x e X) as (x' & E & X'); rewrite A7, E; rewrite A6.
  - exact (head_request [] m u v x' e (Forall_nil _) A1 A2 A3 A4 A5 X').
  - exact (head_response [] v c u x' e (Forall_nil _) A1 A2 A3 A4 A5 X').
Qed.


(* ------------------------------------------------------------------ *)
(* Chunked bodies                                                       *)
(* ------------------------------------------------------------------ *)

Lemma hex1_val n : n < 16 -> hexval (hex1 n) = n /\ hexdigit (hex1 n) /\ (n <> 0 -> hex1 n <> 48).
Proof.
  intros L. unfold hex1, hexval, hexdigit. destruct (N.ltb_spec n 10) as [A|A].
  - destruct (N.leb_spec (48 + n) 57); lia.
  - destruct (N.leb_spec (87 + n) 57); [lia|]. destruct (N.leb_spec (87 + n) 70); lia.
Qed.

Lemma hex_from_ok : forall k n ds, n < 16 ^ N.of_nat (S k) -> Forall hexdigit ds ->
  let w := hex_from (S k) n ds in
  fold_left (fun n d => 16 * n + hexval d) w 0 = fold_left (fun n d => 16 * n + hexval d) ds n /\
  (S (List.length ds) <= List.length w <= S k + List.length ds)%nat /\ Forall hexdigit w /\ (n <> 0 -> hd 48 w <> 48).
Proof.
  induction k as [|k IH]; intros n ds L F w; subst w; cbn [hex_from].
  - change (16 ^ N.of_nat 1) with 16 in L. replace (n <? 16) with true by (symmetry; now apply N.ltb_lt).
    destruct (hex1_val n L) as (A & B & C). cbn [fold_left List.length hd]. rewrite A. split; [f_equal; lia|].
    split; [lia|]. split; [now constructor|exact C].
  - destruct (N.ltb_spec n 16) as [A|A].
    + destruct (hex1_val n A) as (X & B & C). cbn [fold_left List.length hd]. rewrite X. split; [f_equal; lia|].
      split; [lia|]. split; [now constructor|exact C].
    + pose proof (N.mod_lt n 16 ltac:(lia)) as M. destruct (hex1_val (n mod 16) M) as (X & B & _).
      assert (Q : n / 16 < 16 ^ N.of_nat (S k)).
      { apply N.div_lt_upper_bound; [lia|]. rewrite Nat2N.inj_succ, N.pow_succ_r' in L. exact L. }
      assert (Z : n / 16 <> 0). { intros Z. apply N.div_small_iff in Z; [|discriminate]. exact (proj1 (N.lt_nge _ _) Z A). }
      destruct (IH (n / 16) (hex1 (n mod 16) :: ds) Q ltac:(now constructor)) as (I1 & I2 & I3 & I4).
      split; [|split; [split; [exact (Nat.le_trans _ _ _ (Nat.le_succ_diag_r _) (proj1 I2))|refine (Nat.le_trans _ _ _ (proj2 I2) _); cbn [List.length]; lia]|split; [exact I3|intros _; exact (I4 Z)]]].
      refine (eq_trans I1 _). cbn [fold_left]. rewrite X. f_equal. symmetry. apply N.div_mod. lia.
Qed.

Lemma hex_ok n : n < 16 ^ 8 ->
  hexadecimal (hex n) = n /\ (1 <= List.length (hex n) <= 8)%nat /\ Forall hexdigit (hex n) /\ (n <> 0 -> hd 48 (hex n) <> 48).
Proof.
  intros L. destruct (hex_from_ok 7 n [] L (Forall_nil _)) as (A & B & C & D). cbn [List.length] in B.
  unfold hex, hexadecimal. split; [exact A|]. split; [lia|]. now split.
Qed.

Lemma hexadecimal_bound : forall ds n k, Forall hexdigit ds -> n < 16 ^ k ->
  fold_left (fun n d => 16 * n + hexval d) ds n < 16 ^ (k + N.of_nat (List.length ds)).
Proof.
  induction ds as [|d ds IH]; intros n k F L; [now rewrite N.add_0_r|]. inversion F; subst. cbn [fold_left List.length].
  rewrite Nat2N.inj_succ, N.add_succ_r, <- N.add_succ_l. apply IH; [assumption|]. rewrite N.pow_succ_r'.
  assert (hexval d < 16); [|lia]. unfold hexval, hexdigit, byte in *. destruct (N.leb_spec d 57), (N.leb_spec d 70); lia.
Qed.

Lemma size_bound ds : chunk_size ds \/ ds = [48] -> hexadecimal ds < 16 ^ 8.
Proof.
  intros [(A & B & _)| ->]; [|reflexivity]. refine (N.lt_le_trans _ _ _ (hexadecimal_bound ds 0 0 B eq_refl) _).
  apply N.pow_le_mono_r; lia.
Qed.

Lemma size_pos ds : chunk_size ds -> hexadecimal ds <> 0.
Proof.
  intros (A & B & C). destruct ds as [|d ds]; [cbn in A; lia|]. inversion B; subst. cbn [hd] in C.
  unfold hexadecimal. cbn [fold_left].
  assert (G : forall l n, n <= fold_left (fun n d => 16 * n + hexval d) l n).
  { induction l as [|x l IH]; intros n; cbn [fold_left]; [lia|]. specialize (IH (16 * n + hexval x)). lia. }
  specialize (G ds (16 * 0 + hexval d)). assert (hexval d <> 0); [|lia].
  unfold hexval, hexdigit, byte in *. destruct (N.leb_spec d 57), (N.leb_spec d 70); lia.
Qed.

Lemma size_again ds : chunk_size ds -> chunk_size (hex (hexadecimal ds)).
Proof.
  intros S. destruct (hex_ok _ (size_bound _ (or_introl S))) as (A & B & C & D). pose proof (size_pos _ S). split; [exact B|].
  split; [exact C|auto].
Qed.

Lemma size_again' ds : chunk_size ds \/ ds = [48] ->
  chunk_size (hex (hexadecimal ds)) \/ hex (hexadecimal ds) = [48].
Proof. intros [S| ->]; [left; now apply size_again|right; reflexivity]. Qed.

(* Quoted values. *)
Lemma quoted_ok : forall d x, Forall (fun b => field_byte b = true) d ->
  field_text_ok Quoted (flat_map quote d ++ x) = field_text_ok Quoted x /\
  no_bare_semicolon Quoted (flat_map quote d ++ x) = no_bare_semicolon Quoted x /\
  unquoted Quoted (flat_map quote d ++ x) = d ++ unquoted Quoted x.
Proof.
  induction d as [|b d IH]; intros x F; [split; [|split]; reflexivity|]. inversion F; subst.
  destruct (IH x) as (A & B & C); [assumption|]. cbn [flat_map]. rewrite <- app_assoc. unfold quote at 1 3 5.
  destruct (N.eqb_spec b 34) as [->|E]; [|destruct (N.eqb_spec b 92) as [->|E2]]; cbn [orb app].
  - cbn [field_text_ok no_bare_semicolon unquoted]. rewrite A, B, C. repeat split.
  - cbn [field_text_ok no_bare_semicolon unquoted]. rewrite A, B, C. repeat split.
  - cbn [field_text_ok no_bare_semicolon unquoted]. rewrite (proj2 (N.eqb_neq b 34) E), (proj2 (N.eqb_neq b 92) E2), A, B, C, H1.
    repeat split.
Qed.

Lemma unquoted_bytes : forall v m, field_text_ok m v = true -> Forall (fun b => field_byte b = true) (unquoted m v).
Proof.
  induction v as [|b v IH]; intros m H; [destruct m; constructor|]. cbn [field_text_ok unquoted] in *.
  destruct m.
  - destruct (b =? 34); [auto|]. apply andb_true_iff in H. constructor; [tauto|apply IH; tauto].
  - destruct (b =? 34); [auto|]. destruct (b =? 92); [auto|]. apply andb_true_iff in H. constructor; [tauto|apply IH; tauto].
  - rewrite !andb_true_iff, !N.leb_le in H. destruct H as [[H1 H2] H3]. constructor; [|auto].
    unfold field_byte, text_byte. apply andb_true_iff. split; [|apply N.ltb_lt; lia]. apply orb_true_iff. right.
    apply andb_true_iff. split; [now apply N.leb_le|]. apply negb_true_iff, N.eqb_neq. lia.
Qed.

Lemma ext_again n d e0 last :
  Forall (fun b => tchar b = true) n -> map lower_case n = n -> Forall (fun b => field_byte b = true) d ->
  let e := map (FByte KChunkExtName) n ++ map (FByte KChunkExtValue) d ++ [FEv EChunkExtFinished] in
  extension_as last (write chunked_text (Did e0) e) e /\ ends (Did e0) e = Did EChunkExtFinished.
Proof.
  intros N L D e. subst e. split; [|now rewrite !ends_app].
  assert (V : forall p, Forall (fun b => tchar b = true) p -> map lower_case p = p ->
    extension_as last ([59] ++ p ++ [61; 34] ++ flat_map quote d ++ [34])
      (map (FByte KChunkExtName) p ++ map (FByte KChunkExtValue) d ++ [FEv EChunkExtFinished])).
  { intros p P PL. destruct (quoted_ok d [34] D) as (A & B & C).
    pose proof (ext_both last [] p [] (34 :: flat_map quote d ++ [34]) (Forall_nil _) P (Forall_nil _)
      (or_intror eq_refl) A B ltac:(discriminate)) as X.
    change (unquoted Plain (34 :: flat_map quote d ++ [34])) with (unquoted Quoted (flat_map quote d ++ [34])) in X.
    rewrite C, app_nil_r, PL in X. exact X. }
  destruct n as [|c n]; destruct d as [|b d].
  - exact (V [] (Forall_nil _) eq_refl).
  - change (map (FByte KChunkExtName) []) with (@nil fevent). rewrite app_nil_l, write_app.
    destruct (write_some chunked_text KChunkExtValue quote (Did e0) (fun b => eq_refl) b d) as [-> ->].
    specialize (V [] (Forall_nil _) eq_refl). cbn [map app flat_map write] in V |- *.
    replace (chunked_text (Did e0) (FByte KChunkExtValue b)) with ([59; 61; 34] ++ quote b) by reflexivity.
    cbn [chunked_text]. cbn [app]. rewrite <- !app_assoc in *. exact V.
  - rewrite write_app. destruct (write_some chunked_text KChunkExtName (fun b => [b]) (Did e0) (fun b => eq_refl) c n) as [-> ->].
    rewrite flat_one. cbn [map app write].
    replace (chunked_text (Byte KChunkExtName) (FEv EChunkExtFinished)) with (@nil byte) by reflexivity.
    replace (chunked_text (Did e0) (FByte KChunkExtName c)) with [59; c] by reflexivity. cbn [app]. rewrite app_nil_r.
    pose proof (ext_only last [] (c :: n) (Forall_nil _) N ltac:(discriminate)) as X. rewrite L in X. exact X.
  - rewrite write_app. destruct (write_some chunked_text KChunkExtName (fun b => [b]) (Did e0) (fun b => eq_refl) c n) as [-> ->].
    rewrite flat_one, write_app.
    destruct (write_some chunked_text KChunkExtValue quote (Byte KChunkExtName) (fun b => eq_refl) b d) as [-> ->].
    replace (chunked_text (Did e0) (FByte KChunkExtName c)) with [59; c] by reflexivity.
    replace (chunked_text (Byte KChunkExtName) (FByte KChunkExtValue b)) with ([61; 34] ++ quote b) by reflexivity.
    specialize (V (c :: n) N L). cbn [write flat_map] in V |- *.
    replace (chunked_text (Byte KChunkExtValue) (FEv EChunkExtFinished)) with [34] by reflexivity.
    cbn [app] in V |- *. rewrite <- !app_assoc in *. exact V.
Qed.

Lemma extension_again last w e e0 last' : extension_as last w e ->
  extension_as last' (write chunked_text (Did e0) e) e /\ ends (Did e0) e = Did EChunkExtFinished.
Proof.
  destruct 1 as [last p n P N L|last p n p' v P N P' V T S L].
  - exact (ext_again (map lower_case n) [] e0 last' (tchars_lowered _ N) (lower_all n) (Forall_nil _)).
  - exact (ext_again (map lower_case n) (unquoted Plain v) e0 last' (tchars_lowered _ N) (lower_all n) (unquoted_bytes _ _ T)).
Qed.

Lemma extensions_again w e : extensions_as w e -> forall e0,
  extensions_as (write chunked_text (Did e0) e) e /\ ends (Did e0) e = Did EChunkExtFinished.
Proof.
  induction 1 as [w e X|w e w' e' X _ IH]; intros e0.
  - destruct (extension_again true w e e0 true X) as [A B]. split; [now constructor|exact B].
  - destruct (extension_again false w e e0 false X) as [A B]. rewrite write_app, ends_app, B.
    destruct (IH EChunkExtFinished) as [C D]. split; [now constructor|exact D].
Qed.

Definition between (s : said) : list byte := match s with Nothing => [] | _ => crlf end.

Lemma data_written d :
  write chunked_text (Did EChunkExtsFinished) (map (FByte KChunkData) d) = d /\
  ends (Did EChunkExtsFinished) (map (FByte KChunkData) d) <> Nothing.
Proof.
  destruct d as [|b d]; [split; [reflexivity|discriminate]|].
  destruct (write_some chunked_text KChunkData (fun b => [b]) (Did EChunkExtsFinished) (fun b => eq_refl) b d) as [-> ->].
  rewrite flat_one. split; [reflexivity|discriminate].
Qed.

Lemma begin_written s l : write chunked_text s (FEv EChunkBegin :: l) = between s ++ write chunked_text (Did EChunkBegin) l.
Proof. destruct s; reflexivity. Qed.

Lemma chunk_again w e s : chunk_as w e -> exists w',
  write chunked_text s e = between s ++ w' /\ chunk_as (w' ++ crlf) e /\ ends s e <> Nothing.
Proof.
  destruct 1 as [ds d S L|ds x e d S L X]; cbn [app]; rewrite begin_written.
  - destruct (data_written d) as [D1 D2]. destruct (hex_ok _ (size_bound _ (or_introl S))) as (A & B & C & D).
    exists (hex (hexadecimal ds) ++ crlf ++ d). split; [|split; [|exact D2]].
    + cbn [write after]. rewrite D1. reflexivity.
    + pose proof (chunk_plain (hex (hexadecimal ds)) d (size_again _ S) ltac:(now rewrite A)) as Y. rewrite A in Y.
      rewrite <- !app_assoc. exact Y.
  - destruct (data_written d) as [D1 D2]. destruct (hex_ok _ (size_bound _ S)) as (A & B & C & D).
    destruct (extensions_again _ _ X (EChunkLength (hexadecimal ds))) as [X1 X2].
    exists (hex (hexadecimal ds) ++ write chunked_text (Did (EChunkLength (hexadecimal ds))) e ++ crlf ++ d). split; [|split].
    + cbn [write after]. rewrite write_app, X2. cbn [app write after]. rewrite D1. reflexivity.
    + pose proof (chunk_ext (hex (hexadecimal ds)) _ _ d (size_again' _ S) ltac:(now rewrite A) X1) as Y. rewrite A in Y.
      rewrite <- !app_assoc. exact Y.
    + cbn [ends fold_left after]. fold (ends (Did (EChunkLength (hexadecimal ds))) (e ++ FEv EChunkExtsFinished :: map (FByte KChunkData) d)).
      rewrite ends_app, X2. exact D2.
Qed.

Lemma chunked_again' w e : chunked_as w e -> forall s, exists w',
  write chunked_text s e = between s ++ w' /\ chunked_as w' e.
Proof.
  induction 1 as [x e X|w e w' e' C _ IH]; intros s.
  - cbn [app]. rewrite begin_written.
    destruct (lines_written chunked_text (Did (EChunkLength 0)) crlf x e) as (x' & E & L & N);
      [intros ev; fieldb_cases ev|intros ev; fieldb_cases ev|intros ev; fieldb_cases ev|exact X|].
    exists ([48] ++ crlf ++ x'). split; [|now constructor]. cbn [write after]. rewrite write_app, E, N.
    cbn [write]. replace (chunked_text (Did EHeadersFinished) (FEv EBodyFinished)) with (@nil byte) by reflexivity.
    replace (chunked_text (Did EChunkBegin) (FEv (EChunkLength 0))) with [48] by reflexivity. now rewrite !app_nil_r.
  - destruct (chunk_again w e s C) as (v & E & V & N). destruct (IH (ends s e)) as (v' & E' & V').
    exists (v ++ crlf ++ v'). rewrite write_app, E, E'. split.
    + destruct (ends s e); [congruence| |]; cbn [between]; now rewrite <- !app_assoc.
    + rewrite app_assoc. now constructor.
Qed.

Lemma chunked_again w e : chunked_as w e -> chunked_as (write chunked_text Nothing e) e.
Proof. intros C. destruct (chunked_again' _ _ C Nothing) as (w' & -> & H). exact H. Qed.

(* ------------------------------------------------------------------ *)
(* Multipart bodies                                                     *)
(* ------------------------------------------------------------------ *)

Lemma parts_again bd clen l w e : parts_as bd clen l w e -> forall s, exists w',
  write (multipart_text bd) s e = between s ++ bs "--" ++ bd ++ w' /\ parts_as bd clen l w' e.
Proof.
  induction 1 as [l|l x e d w e' X D _ IH]; intros s.
  - exists (bs "--"). split; [|constructor]. unfold write, multipart_text. fold (between s). now rewrite app_nil_r, <- !app_assoc.
  - destruct (lines_written (multipart_text bd) (Did EMultipartBegin) [] x e) as (x' & E & L & N);
      [intros ev; fieldb_cases ev|intros ev; fieldb_cases ev|intros ev; fieldb_cases ev|exact X|].
    assert (T : write (multipart_text bd) (Did EContentLength) (map (FByte KMultipartData) d) = d /\
      ends (Did EContentLength) (map (FByte KMultipartData) d) <> Nothing).
    { destruct d as [|b d]; [split; [reflexivity|discriminate]|].
      destruct (write_some (multipart_text bd) KMultipartData (fun b => [b]) (Did EContentLength) (fun b => eq_refl) b d) as [-> ->].
      rewrite flat_one. split; [reflexivity|discriminate]. }
    destruct T as [T1 T2]. destruct (IH (ends (Did EContentLength) (map (FByte KMultipartData) d))) as (w' & E' & P).
    exists (crlf ++ x' ++ d ++ crlf ++ bs "--" ++ bd ++ w'). split; [|now constructor].
    change ([FEv EMultipartBegin] ++ e ++ [FEv EContentLength] ++ map (FByte KMultipartData) d ++ e') with
      (FEv EMultipartBegin :: e ++ FEv EContentLength :: map (FByte KMultipartData) d ++ e').
    cbn [write after]. rewrite write_app, E, N. cbn [write after].
    rewrite write_app, T1, E'.
    replace (multipart_text bd (Did EHeadersFinished) (FEv EContentLength)) with (@nil byte) by reflexivity.
    replace (multipart_text bd s (FEv EMultipartBegin)) with ((between s ++ bs "--" ++ bd) ++ crlf) by reflexivity.
    destruct (ends (Did EContentLength) (map (FByte KMultipartData) d)); [congruence| |]; cbn [between app];
    rewrite <- !app_assoc; reflexivity.
Qed.

Lemma multipart_again bd clen w e : multipart_as bd clen w e ->
  multipart_as bd clen (write (multipart_text bd) Nothing e) e.
Proof.
  destruct 1 as [w e P]. destruct (parts_again _ _ _ _ _ P Nothing) as (w' & -> & H). now constructor.
Qed.

(* ------------------------------------------------------------------ *)
(* URL-encoded bodies                                                   *)
(* ------------------------------------------------------------------ *)

Lemma coded_bytes stop d w : coded stop d w -> Forall (fun b => b < 256) d.
Proof.
  induction 1 as [|b d w V _ _ _ IH|d w _ IH|x y d w X Y _ IH]; constructor; auto.
  - unfold visible_byte in V. rewrite andb_true_iff, !N.leb_le in V. lia.
  - lia.
  - assert (H : forall z, hexdigit z -> hexval z < 16).
    { intros z Z. unfold hexval, hexdigit, byte in *. destruct (N.leb_spec z 57), (N.leb_spec z 70); lia. }
    pose proof (H x X). pose proof (H y Y). lia.
Qed.

Lemma coded_again stop d : (forall b, In b stop -> In b (bs "=&;")) -> Forall (fun b => b < 256) d ->
  coded stop d (flat_map escape d).
Proof.
  intros S. induction 1 as [|b d B _ IH]; [constructor|]. cbn [flat_map]. unfold escape at 1.
  destruct (((48 <=? b) && (b <=? 57)) || ((65 <=? b) && (b <=? 90)) || ((97 <=? b) && (b <=? 122))) eqn:E.
  - rewrite !orb_true_iff, !andb_true_iff, !N.leb_le in E. apply coded_literal; [| | |exact IH].
    + unfold visible_byte. rewrite andb_true_iff, !N.leb_le. lia.
    + intros I. cbn in I. unfold byte in *. lia.
    + intros I. apply S in I. cbn in I. unfold byte in *. lia.
  - pose proof (N.mod_lt b 16 ltac:(lia)) as M. assert (Q : b / 16 < 16) by (apply N.div_lt_upper_bound; lia).
    destruct (hex1_val _ M) as (A & A' & _). destruct (hex1_val _ Q) as (C & C' & _).
    pose proof (coded_escape stop (hex1 (b / 16)) (hex1 (b mod 16)) d _ C' A' IH) as X.
    rewrite A, C, <- N.div_mod in X by lia. exact X.
Qed.

Definition pair_seen (p : list byte * list byte) : list fevent :=
  [FEv EUrlBegin] ++ map (FByte KUrlName) (fst p) ++ map (FByte KUrlValue) (snd p).
Definition good_pair (p : list byte * list byte) : Prop :=
  Forall (fun b => b < 256) (fst p) /\ Forall (fun b => b < 256) (snd p).
Definition pair_text (p : list byte * list byte) : list byte :=
  match p with
  | ([], []) => [61]
  | (n, []) => flat_map escape n
  | (n, v) => flat_map escape n ++ [61] ++ flat_map escape v
  end.

Lemma pair_normal c w e : pair_as c w e -> exists p, e = pair_seen p /\ good_pair p.
Proof.
  destruct 1 as [n w c C N|n v w w' c C N V].
  - exists (n, []). split; [unfold pair_seen; cbn [fst snd map]; now rewrite app_nil_r|].
    split; [exact (coded_bytes _ _ _ N)|constructor].
  - exists (n, v). split; [reflexivity|]. split; [exact (coded_bytes _ _ _ N)|exact (coded_bytes _ _ _ V)].
Qed.

Lemma pairs_normal w e : pairs_as w e -> exists ps, e = flat_map pair_seen ps /\ Forall good_pair ps.
Proof.
  induction 1 as [|c w e _ P|w e s w' e' P _ _ (ps & -> & G)].
  - exists []. split; [reflexivity|constructor].
  - destruct (pair_normal _ _ _ P) as (p & -> & G). exists [p]. cbn [flat_map]. rewrite app_nil_r. split; [reflexivity|now constructor].
  - destruct (pair_normal _ _ _ P) as (p & -> & G'). exists (p :: ps). split; [reflexivity|now constructor].
Qed.

Definition closing (s : said) : list byte := match s with Did EUrlBegin => [61] | _ => [] end.

Lemma pair_written p : exists x s,
  write url_encoded_text (Did EUrlBegin) (map (FByte KUrlName) (fst p) ++ map (FByte KUrlValue) (snd p)) = x /\
  ends (Did EUrlBegin) (map (FByte KUrlName) (fst p) ++ map (FByte KUrlValue) (snd p)) = s /\
  s <> Nothing /\ x ++ closing s = pair_text p.
Proof.
  destruct p as [n v]. cbn [fst snd].
  assert (V : forall b v s, s <> Byte KUrlValue ->
    write url_encoded_text s (map (FByte KUrlValue) (b :: v)) = [61] ++ flat_map escape (b :: v) /\
    ends s (map (FByte KUrlValue) (b :: v)) = Byte KUrlValue).
  { intros b v' s S. destruct (write_some url_encoded_text KUrlValue escape s (fun b => eq_refl) b v') as [-> ->].
    split; [|reflexivity]. cbn [flat_map]. destruct s as [|k|]; [reflexivity|destruct k; (reflexivity || congruence)|reflexivity]. }
  assert (W : forall b n s, write url_encoded_text s (map (FByte KUrlName) (b :: n)) = flat_map escape (b :: n) /\
    ends s (map (FByte KUrlName) (b :: n)) = Byte KUrlName).
  { intros b n' s. destruct (write_some url_encoded_text KUrlName escape s (fun b => eq_refl) b n') as [-> ->].
    split; [|reflexivity]. reflexivity. }
  destruct n as [|c n]; destruct v as [|b v].
  - eexists; eexists. split; [reflexivity|]. split; [reflexivity|]. split; [discriminate|reflexivity].
  - destruct (V b v (Did EUrlBegin) ltac:(discriminate)) as [E1 E2]. eexists; eexists. cbn [map app] in *.
    split; [exact E1|]. split; [exact E2|]. split; [discriminate|]. cbn [closing]. rewrite app_nil_r. reflexivity.
  - destruct (W c n (Did EUrlBegin)) as [E1 E2]. eexists; eexists. rewrite write_app, ends_app, E1, E2.
    split; [reflexivity|]. split; [reflexivity|]. split; [discriminate|]. cbn [map write ends fold_left closing]. rewrite !app_nil_r. reflexivity.
  - destruct (W c n (Did EUrlBegin)) as [E1 E2]. destruct (V b v (Byte KUrlName) ltac:(discriminate)) as [E3 E4].
    eexists; eexists. rewrite write_app, ends_app, E1, E2, E3, E4.
    split; [reflexivity|]. split; [reflexivity|]. split; [discriminate|]. cbn [closing]. rewrite !app_nil_r. reflexivity.
Qed.

Lemma pairs_after ps : forall s, s <> Nothing ->
  write url_encoded_text s (flat_map pair_seen ps ++ [FEv EBodyFinished]) =
  closing s ++ flat_map (fun p => 38 :: pair_text p) ps.
Proof.
  induction ps as [|p ps IH]; intros s S.
  - cbn [flat_map app write]. rewrite !app_nil_r. destruct s as [| |e]; [congruence|reflexivity|destruct e; reflexivity].
  - destruct (pair_written p) as (x & s' & E1 & E2 & E3 & E4). cbn [flat_map]. unfold pair_seen at 1.
    rewrite <- !app_assoc. cbn [app]. cbn [write after]. rewrite app_assoc, write_app, E1, E2, (IH s' E3), (app_assoc x), E4.
    cbn [flat_map]. destruct s as [| |e]; [congruence|reflexivity|destruct e; reflexivity].
Qed.

Lemma pairs_first ps :
  write url_encoded_text Nothing (flat_map pair_seen ps ++ [FEv EBodyFinished]) =
  match ps with [] => [] | p :: ps => pair_text p ++ flat_map (fun p => 38 :: pair_text p) ps end.
Proof.
  destruct ps as [|p ps]; [reflexivity|].
  destruct (pair_written p) as (x & s' & E1 & E2 & E3 & E4). cbn [flat_map]. unfold pair_seen at 1.
  rewrite <- !app_assoc. cbn [app]. cbn [write after]. rewrite app_assoc, write_app, E1, E2, (pairs_after ps s' E3), (app_assoc x), E4.
  reflexivity.
Qed.

Lemma pair_again p : good_pair p -> pair_text p <> [] /\ pair_as [] (pair_text p) (pair_seen p).
Proof.
  destruct p as [n v]. intros [N V]. cbn [fst snd] in *.
  assert (CN : coded (bs "=&;") n (flat_map escape n)) by (apply coded_again; auto).
  assert (CV : coded (bs "&;") v (flat_map escape v)) by (apply coded_again; [|exact V]; cbn; tauto).
  assert (NE : forall b l, flat_map escape (b :: l) <> []).
  { intros b l. cbn [flat_map]. unfold escape at 1. destruct (_ || _); discriminate. }
  pose proof (pair_both n v _ _ [] (or_introl eq_refl) CN CV) as B.
  pose proof (pair_only n _ [] (or_introl eq_refl) CN) as O.
  destruct n as [|c n]; destruct v as [|b v].
  - split; [discriminate|exact B].
  - split; [discriminate|]. cbn [app] in B. rewrite app_nil_r in B. exact B.
  - split; [apply NE|]. rewrite app_nil_r in O. unfold pair_seen. cbn [fst snd map] in O |- *. rewrite app_nil_r. exact O.
  - split; [cbn [pair_text]; intros X; apply app_eq_nil in X; destruct X as [X _]; exact (NE _ _ X)|].
    rewrite app_nil_r in B. exact B.
Qed.

Lemma pairs_again' ps : forall p, Forall good_pair (p :: ps) ->
  pairs_as (pair_text p ++ flat_map (fun p => 38 :: pair_text p) ps) (flat_map pair_seen (p :: ps)).
Proof.
  induction ps as [|p' ps IH]; intros p G; inversion G; subst; destruct (pair_again p) as [A B]; auto.
  - cbn [flat_map]. rewrite !app_nil_r. exact (pairs_last [] _ _ A B).
  - cbn [flat_map]. exact (pairs_more _ _ 38 _ _ B (or_introl eq_refl) (IH p' H2)).
Qed.

Lemma pairs_again w e : pairs_as w e -> pairs_as (write url_encoded_text Nothing (e ++ [FEv EBodyFinished])) e.
Proof.
  intros P. destruct (pairs_normal _ _ P) as (ps & -> & G). rewrite pairs_first.
  destruct ps as [|p ps]; [constructor|now apply pairs_again'].
Qed.

(* ------------------------------------------------------------------ *)
(* Plain messages                                                       *)
(* ------------------------------------------------------------------ *)

Definition plain_field (f : list byte * list byte) : header := Header (fst f) [32] (snd f) [].

Lemma plain_fields fs : Forall good_field fs ->
  Forall wf_header (map plain_field fs) /\ Forall plain_header (map plain_field fs) /\
  render_headers (map plain_field fs) = flat_map field_line fs ++ crlf /\
  seen_headers (map plain_field fs) = flat_map field_seen fs ++ [FEv EHeadersFinished].
Proof.
  unfold render_headers, seen_headers.
  induction 1 as [|[n v] fs (G1 & G2 & G3 & G4 & G5) _ (IH1 & IH2 & IH3 & IH4)]; [split; [constructor|split; [constructor|split; reflexivity]]|].
  cbn [fst snd] in *. cbn [map flat_map]. rewrite <- !app_assoc, IH3, IH4. split; [|split; [|split]].
  - constructor; [|exact IH1]. unfold wf_header. cbn [plain_field h_name h_pad h_value h_folds fst snd].
    split; [exact G1|]. split; [exact G2|]. split; [repeat constructor|]. split; [exact G4|]. split; [exact G5|constructor].
  - constructor; [split; reflexivity|exact IH2].
  - unfold render_header, plain_field, field_line. cbn [h_name h_pad h_value h_folds fst snd flat_map]. flatten. reflexivity.
  - unfold seen_header, plain_field, field_seen. cbn [h_name h_pad h_value h_folds fst snd flat_map].
    rewrite G3, app_nil_r, <- !app_assoc. reflexivity.
Qed.

Lemma head_plain w L : head_as w L -> named L ->
  (exists q, wf_request q /\ plain_request q /\ write head_text Nothing L = render_request q /\ L = seen_request q) \/
  (exists r, wf_response r /\ plain_response r /\ write head_text Nothing L = render_response r /\ L = seen_response r).
Proof.
  intros H N.
  assert (D : forall x e, lines_as x e -> (exists y, L = y ++ [FEv EInitialFinished] ++ e) -> exists fs,
    Forall wf_header fs /\ Forall plain_header fs /\
    write head_text (Did EInitialFinished) e = render_headers fs /\ e = seen_headers fs).
  { intros x e X (y & E). destruct (lines_normal _ _ X) as (v & fs & -> & _ & F).
    assert (v = []) as ->.
    { destruct v as [|b v]; [reflexivity|]. exfalso. apply (N y b (map (FByte KHeaderValue) v ++ flat_map field_seen fs ++ [FEv EHeadersFinished])).
      exact E. }
    destruct (plain_fields fs F) as (A & B & C & D). exists (map plain_field fs). split; [exact A|]. split; [exact B|].
    rewrite C, D. split; [|reflexivity].
    refine (fields_written head_text _ _ (Did EInitialFinished) [] _ [] fs F); intros ev; fieldb_cases ev. }
  destruct (head_written_parts _ _ H) as (e & x & X & [(m & u & v & A1 & A2 & A3 & A4 & A5 & A6 & A7)|
    (v & c & u & A1 & A2 & A3 & A4 & A5 & A6 & A7)]).
  - left. destruct (D x e X) as (fs & F1 & F2 & F3 & F4).
    { exists (map (FByte KMethod) m ++ map (FByte KUrl) u ++ [seen_version v]). rewrite A6, <- !app_assoc. reflexivity. }
    exists (Request [] m u v fs). split; [|split; [|split]].
    + unfold wf_request. cbn. repeat (split; [assumption || constructor|]). exact F1.
    + split; [reflexivity|exact F2].
    + rewrite A7, F3. reflexivity.
    + rewrite A6, F4. reflexivity.
  - right. destruct (D x e X) as (fs & F1 & F2 & F3 & F4).
    { exists ([seen_version v; FEv (EStatusCode (decimal c))] ++ map (FByte KStatus) u). rewrite A6, <- !app_assoc. reflexivity. }
    exists (Response [] v c u fs). split; [|split; [|split]].
    + unfold wf_response. cbn. repeat (split; [assumption || constructor|]). exact F1.
    + split; [reflexivity|exact F2].
    + rewrite A7, F3. reflexivity.
    + rewrite A6, F4. reflexivity.
Qed.

Lemma coded_encodes d : Forall (fun b => b < 256) d -> encodes d (flat_map escape d).
Proof.
  induction 1 as [|b d B _ IH]; [constructor|]. cbn [flat_map]. unfold escape at 1.
  destruct (((48 <=? b) && (b <=? 57)) || ((65 <=? b) && (b <=? 90)) || ((97 <=? b) && (b <=? 122))) eqn:E.
  - rewrite !orb_true_iff, !andb_true_iff, !N.leb_le in E. apply enc_literal; [| |exact IH].
    + unfold visible_byte. rewrite andb_true_iff, !N.leb_le. lia.
    + intros I. cbn in I. unfold byte in *. lia.
  - pose proof (N.mod_lt b 16 ltac:(lia)) as M. assert (Q : b / 16 < 16) by (apply N.div_lt_upper_bound; lia).
    destruct (hex1_val _ M) as (A & A' & _). destruct (hex1_val _ Q) as (C & C' & _).
    pose proof (enc_escape (hex1 (b / 16)) (hex1 (b mod 16)) d _ C' A' IH) as X.
    rewrite A, C, <- N.div_mod in X by lia. exact X.
Qed.

Definition plain_pair (p : list byte * list byte) : url_pair :=
  match p with ([], v) => ([], Some v) | (n, []) => (n, None) | (n, v) => (n, Some v) end.

Lemma plain_pair_ok p : good_pair p -> pair_wire (plain_pair p) (pair_text p) /\ seen_pair (plain_pair p) = pair_seen p.
Proof.
  destruct p as [n v]. intros [N V]. cbn [fst snd] in *. pose proof (coded_encodes n N) as CN. pose proof (coded_encodes v V) as CV.
  destruct n as [|c n]; destruct v as [|b v].
  - split; [exact (pair_value [] [] [] [] enc_nil enc_nil)|reflexivity].
  - split; [exact (pair_value [] _ [] _ enc_nil CV)|reflexivity].
  - split; [|reflexivity]. refine (pair_name _ _ _ CN). cbn [flat_map]. unfold escape at 1. destruct (_ || _); discriminate.
  - split; [exact (pair_value _ _ _ _ CN CV)|reflexivity].
Qed.

Lemma plain_pairs ps : forall p, Forall good_pair (p :: ps) ->
  body_wire (map plain_pair (p :: ps)) (pair_text p ++ flat_map (fun p => 38 :: pair_text p) ps) /\
  flat_map seen_pair (map plain_pair (p :: ps)) = flat_map pair_seen (p :: ps).
Proof.
  induction ps as [|p' ps IH]; intros p G; inversion G; subst; destruct (plain_pair_ok p) as [A B]; auto.
  - cbn [flat_map map]. rewrite !app_nil_r. split; [now constructor|exact B].
  - destruct (IH p' H2) as [C D]. split; [|change (seen_pair (plain_pair p) ++ flat_map seen_pair (map plain_pair (p' :: ps)) = pair_seen p ++ flat_map pair_seen (p' :: ps)); now rewrite B, D].
    cbn [flat_map]. refine (body_cons _ (map plain_pair (p' :: ps)) _ 38 _ A (or_introl eq_refl) _ C). discriminate.
Qed.

Lemma pairs_plain w e : pairs_as w e -> exists ps,
  body_wire ps (write url_encoded_text Nothing (e ++ [FEv EBodyFinished])) /\ seen_pairs ps = e ++ [FEv EBodyFinished].
Proof.
  intros P. destruct (pairs_normal _ _ P) as (ps & -> & G). rewrite pairs_first.
  destruct ps as [|p ps]; [exists []; split; [constructor|reflexivity]|].
  destruct (plain_pairs ps p G) as [A B]. exists (map plain_pair (p :: ps)). split; [exact A|]. unfold seen_pairs. now rewrite B.
Qed.

(* ------------------------------------------------------------------ *)
(* The parsers                                                          *)
(* ------------------------------------------------------------------ *)

Lemma head_passed_on h q segs p' log tail h2 q2 segs2 tail2 :
  hok (strip (List.concat segs)) = true \/ (9 <= List.length (strip (hd [] segs)))%nat ->
  feed h (init_head q) segs = (p', log, tail, OFinished) ->
  List.concat segs2 = head_written log ++ tail2 ->
  hok (strip (List.concat segs2)) = true \/ (9 <= List.length (strip (hd [] segs2)))%nat ->
  exists p2 log2, feed h2 (init_head q2) segs2 = (p2, log2, tail2, OFinished) /\ flat log2 = flat log.
Proof.
  intros H F E H2. destruct (proj1 (head_exact h q segs tail (flat log) H)) as (w & _ & A); [now exists p', log|].
  apply (proj2 (head_exact h2 q2 segs2 tail2 (flat log) H2)). exists (head_written log). split; [exact E|exact (head_again _ _ A)].
Qed.

Lemma head_written_plain h q segs p' log tail :
  hok (strip (List.concat segs)) = true \/ (9 <= List.length (strip (hd [] segs)))%nat ->
  feed h (init_head q) segs = (p', log, tail, OFinished) -> named (flat log) ->
  (exists m, wf_request m /\ plain_request m /\ head_written log = render_request m /\ flat log = seen_request m) \/
  (exists m, wf_response m /\ plain_response m /\ head_written log = render_response m /\ flat log = seen_response m).
Proof.
  intros H F N. destruct (proj1 (head_exact h q segs tail (flat log) H)) as (w & _ & A); [now exists p', log|].
  exact (head_plain _ _ A N).
Qed.

Lemma chunked_passed_on h q segs p' log tail h2 q2 segs2 tail2 :
  feed h (init_chunked q) segs = (p', log, tail, OFinished) ->
  List.concat segs2 = chunked_written log ++ tail2 ->
  exists p2 log2, feed h2 (init_chunked q2) segs2 = (p2, log2, tail2, OFinished) /\ flat log2 = flat log.
Proof.
  intros F E. destruct (proj1 (chunked_exact h q segs tail (flat log))) as (w & _ & A); [now exists p', log|].
  apply (proj2 (chunked_exact h2 q2 segs2 tail2 (flat log))). exists (chunked_written log). split; [exact E|exact (chunked_again _ _ A)].
Qed.

Lemma multipart_passed_on h clen q bd segs p' log tail h2 q2 segs2 tail2 :
  (forall l, h_clen h l = clen (flat l)) -> (forall l, h_clen h2 l = clen (flat l)) ->
  ~ In 13 bd -> N.of_nat (List.length bd) <= 2 ^ 14 ->
  feed h (set_boundary (init_multipart q) bd) segs = (p', log, tail, OFinished) ->
  List.concat segs2 = multipart_written bd log ++ tail2 ->
  exists p2 log2, feed h2 (set_boundary (init_multipart q2) bd) segs2 = (p2, log2, tail2, OFinished) /\ flat log2 = flat log.
Proof.
  intros H H2 B B' F E.
  destruct (proj1 (multipart_exact h clen q bd segs tail (flat log) H B B')) as (w & _ & A); [now exists p', log|].
  apply (proj2 (multipart_exact h2 clen q2 bd segs2 tail2 (flat log) H2 B B')). exists (multipart_written bd log).
  split; [exact E|exact (multipart_again _ _ _ _ A)].
Qed.

Lemma url_passed_on h q n segs p' log tail h2 q2 segs2 tail2 : segs <> [] ->
  feed h (set_length (init_url_encoded q) n) segs = (p', log, tail, OFinished) ->
  segs2 <> [] -> List.concat segs2 = url_encoded_written log ++ tail2 ->
  exists p2 log2,
    feed h2 (set_length (init_url_encoded q2) (N.of_nat (List.length (url_encoded_written log)))) segs2 =
      (p2, log2, tail2, OFinished) /\ flat log2 = flat log.
Proof.
  intros NE F NE2 E. destruct (proj1 (url_exact h q n segs tail (flat log) NE)) as (w & e & _ & _ & A & L); [now exists p', log|].
  apply (proj2 (url_exact h2 q2 _ segs2 tail2 (flat log) NE2)). exists (url_encoded_written log), e.
  split; [exact E|]. split; [reflexivity|]. split; [|exact L]. unfold url_encoded_written. rewrite L. exact (pairs_again _ _ A).
Qed.

Lemma url_written_plain h q n segs p' log tail : segs <> [] ->
  feed h (set_length (init_url_encoded q) n) segs = (p', log, tail, OFinished) ->
  exists ps, body_wire ps (url_encoded_written log) /\ flat log = seen_pairs ps.
Proof.
  intros NE F. destruct (proj1 (url_exact h q n segs tail (flat log) NE)) as (w & e & _ & _ & A & L); [now exists p', log|].
  destruct (pairs_plain _ _ A) as (ps & B & S). exists ps. unfold url_encoded_written. rewrite L. now rewrite S.
Qed.
