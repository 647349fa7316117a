(* Sample byte streams for the examples beside C62, and a way to check its
   hypothesis for them by computation. *)

From Coq Require Import NArith List Bool Arith String Lia.
From Verif Require Import Bytes Http2Model Http2Spec Http2Any.
Import ListNotations.
Local Open Scope N_scope.

Lemma whole_check (segs : list (list byte)) :
  forallb (fun n => match snd (decoded (List.concat (firstn n segs))) with
                    | Some r => negb (inside r) | None => true end)
          (seq 0 (S (List.length segs))) = true ->
  whole_fields segs.
Proof.
  intros H b a r E F. rewrite forallb_forall in H.
  specialize (H (List.length b)). rewrite E in H.
  rewrite firstn_app, firstn_all, Nat.sub_diag, firstn_O, app_nil_r, F in H.
  apply negb_true_iff, H, in_seq. rewrite app_length. lia.
Qed.

(* A SETTINGS frame of length 12 with two settings, of which the second is taken
   for the header of a DATA frame together with the three bytes that follow. *)
Definition stream_settings : list byte :=
  [0; 0; 12; 4; 0; 0; 0; 0; 0] ++ [0; 3; 0; 0; 0; 100] ++ [0; 0; 4; 0; 0; 0].
(* ... and those bytes, followed by the data. *)
Definition stream_data : list byte := [0; 0; 9] ++ bs "data".
(* An unsupported frame with padding, and half of a HEADERS frame. *)
Definition stream_rest : list byte :=
  [0; 0; 6; 200; 8; 128; 0; 0; 1; 2] ++ bs "abc" ++ [0; 0] ++
  [0; 0; 9; 1; 32; 0; 0; 0; 3; 128; 0; 0; 2; 7] ++ bs "fr".
(* In pieces, cut amid the data, a frame header and the priority. *)
Definition stream_pieces : list (list byte) :=
  [stream_settings ++ firstn 5 stream_data; skipn 5 stream_data ++ firstn 4 stream_rest; [];
   firstn 23 (skipn 4 stream_rest); skipn 27 stream_rest].
(* The first bytes of the data come from a frame that is in order; then a padded
   DATA frame of length 2 that claims 5 bytes of padding. *)
Definition stream_short : list byte :=
  [0; 0; 1; 0; 0; 0; 0; 0; 1] ++ bs "x" ++ [0; 0; 2; 0; 8; 0; 0; 0; 1; 5] ++ bs "yz".
