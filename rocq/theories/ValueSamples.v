(* Samples for C88. *)

From Coq Require Import NArith List Bool Arith String Lia.
From Verif Require Import Bytes Http1Model Http1Spec Http1Wire FormSamples ValueSpec.
Import ListNotations.
Local Open Scope N_scope.
Local Open Scope list_scope.

(* A request with a field X of the value v. *)
Definition with_value (v : list byte) : list byte :=
  render_request (Request [] (bs "GET") (bs "/") (bs "1", bs "1") [Header (bs "X") [32] v []]).

Definition disk : list byte := bs "5" ++ [34] ++ bs " disk".

Lemma disk_value : field_value disk.
Proof.
  right. unfold field_vchar. split; [cbn; lia|]. split; [cbn; lia|].
  change disk with [53; 34; 32; 100; 105; 115; 107].
  repeat (apply Forall_cons; [lia|]). constructor.
Qed.

(* Responses and requests with a field before the one that is not taken. *)
Definition a_get : request := Request crlf (bs "GET") (bs "/x") (bs "1", bs "1") [Header (bs "Host") [32] (bs "a.b") []].
Definition get_before : list byte := crlf ++ bs "GET /x HTTP/1.1" ++ crlf ++ bs "Host: a.b" ++ crlf.
Definition an_ok : response := Response [] (bs "1", bs "1") (bs "200") (bs "OK") [Header (bs "Age") [] (bs "7") []].
Definition ok_before : list byte := bs "HTTP/1.1 200 OK" ++ crlf ++ bs "Age:7" ++ crlf.

Lemma a_get_ok : wf_request a_get.
Proof.
  unfold wf_request, wf_version, wf_header, padding, starts_visible, blank, digit. cbn.
  repeat first [split | discriminate | reflexivity | apply Forall_nil | apply Forall_cons | lia | cbn; lia].
Qed.

Lemma an_ok_ok : wf_response an_ok.
Proof.
  unfold wf_response, wf_version, wf_header, padding, starts_visible, blank, digit. cbn.
  repeat first [split | discriminate | reflexivity | apply Forall_nil | apply Forall_cons | lia | cbn; lia].
Qed.

Lemma disk_stops : stops disk 13.
Proof.
  apply (stops_quoted (bs "5") (bs " disk")); try reflexivity.
  change (bs " disk") with ((((([] ++ [32]) ++ [100]) ++ [105]) ++ [115]) ++ [107]).
  repeat (apply quoted_text; [|reflexivity|discriminate|discriminate]). apply quoted_nil.
Qed.

(* A tilde may be escaped in quotes (RFC 7230, 3.2.6), but is not taken there. *)
Definition tilde : list byte := [34; 97; 92; 126; 34].
Lemma tilde_value : field_value tilde.
Proof.
  right. unfold field_vchar. split; [cbn; lia|]. split; [cbn; lia|].
  unfold tilde. repeat (apply Forall_cons; [lia|]). constructor.
Qed.

Lemma not_taken : exists v1 v2 v3 v4,
  v1 = [] /\ hd 0 v2 = 233 /\ hd 0 v3 = 53 /\ v4 = [34; 97; 92; 126; 34] /\ Forall field_value [v1; v2; v3; v4] /\
  map (fun v => snd (feed yes (init_head new) [with_value v])) [v1; v2; v3; v4] =
    [OError (ErHeaderValue 13); OError (ErHeaderValue 233); OError (ErHeaderValue 13); OError (ErHeaderValue 126)].
Proof.
  exists [], [233; 97], disk, tilde. split; [reflexivity|]. split; [reflexivity|]. split; [reflexivity|].
  split; [reflexivity|]. split; [|vm_compute; reflexivity].
  apply Forall_cons; [now left|]. apply Forall_cons.
  - right. unfold field_vchar. cbn. split; [lia|]. split; [lia|]. repeat (apply Forall_cons; [lia|]). constructor.
  - apply Forall_cons; [exact disk_value|]. apply Forall_cons; [exact tilde_value|constructor].
Qed.

(* The bytes of header values a handler was told. *)
Definition told_value (l : list fevent) : list byte :=
  flat_map (fun e => match e with FByte KHeaderValue b => [b] | _ => [] end) l.

Lemma space_kept : exists v w, field_value v /\ padding w /\
  (let '(_, log, _, o) := feed yes (init_head new) [with_value (v ++ w)] in
   o = OFinished /\ told_value (flat log) <> v /\ told_value (flat log) = v ++ w).
Proof.
  exists (bs "a"), [32; 9]. split; [right; unfold field_vchar; cbn; repeat split; try lia; repeat constructor; lia|].
  split; [repeat constructor; lia|]. vm_compute. split; [reflexivity|]. split; [discriminate|reflexivity].
Qed.
