(* What the unit tests of the crate (Http2Tests.v) are written with:
   /repo/src/http2/test/mod.rs. *)

From Coq Require Import NArith List Bool Arith String.
From Verif Require Import Bytes ByteStream Http2Model.
Import ListNotations.
Local Open Scope N_scope.

(* pack_u8!, pack_u16!, pack_u32!, /repo/src/http2/test/mod.rs:27-49 *)
Definition pack_u8 (n : N) : list byte := [n].
Definition pack_u16 (n : N) : list byte := [n / 256 mod 256; n mod 256].
Definition pack_u32 (n : N) : list byte :=
  [n / 2 ^ 24 mod 256; n / 2 ^ 16 mod 256; n / 256 mod 256; n mod 256].

(* DebugHandler, /repo/src/http2/test/mod.rs:63-342: answers true always *)
Definition debug : handler := fun _ _ => true.

(* Its fields: what was reported last, or all bytes reported,
   /repo/src/http2/test/mod.rs:63-144 *)
Definition final {X} (x0 : X) (f : event -> option X) (log : list event) : X :=
  fold_left (fun v e => match f e with Some v' => v' | None => v end) log x0.
Definition same (k k' : dkind) : bool :=
  match k, k' with
  | KData, KData | KDebug, KDebug | KFragment, KFragment | KPing, KPing
  | KUnsupported, KUnsupported => true
  | _, _ => false
  end.
Definition text (k : dkind) (log : list event) : list byte :=
  flat_map (fun e => match e with EData k' d _ => if same k k' then d else [] | _ => [] end) log.
Definition finished (k : dkind) : list event -> bool :=
  final false (fun e => match e with EData k' _ b => if same k k' then Some b else None | _ => None end).
Definition frame_payload_length :=
  final 0 (fun e => match e with EFrameFormat x _ _ _ => Some x | _ => None end).
Definition frame_type_of :=
  final 0 (fun e => match e with EFrameFormat _ x _ _ => Some x | _ => None end).
Definition frame_flags :=
  final 0 (fun e => match e with EFrameFormat _ _ x _ => Some x | _ => None end).
Definition frame_stream_id :=
  final 0 (fun e => match e with EFrameFormat _ _ _ x => Some x | _ => None end).
Definition go_away_stream_id :=
  final 0 (fun e => match e with EGoAway x _ => Some x | _ => None end).
Definition go_away_error_code :=
  final 0 (fun e => match e with EGoAway _ x => Some x | _ => None end).
Definition headers_exclusive :=
  final false (fun e => match e with EHeaders x _ _ => Some x | _ => None end).
Definition headers_stream_id :=
  final 0 (fun e => match e with EHeaders _ x _ => Some x | _ => None end).
Definition headers_weight :=
  final 0 (fun e => match e with EHeaders _ _ x => Some x | _ => None end).
Definition priority_exclusive :=
  final false (fun e => match e with EPriority x _ _ => Some x | _ => None end).
Definition priority_stream_id :=
  final 0 (fun e => match e with EPriority _ x _ => Some x | _ => None end).
Definition priority_weight :=
  final 0 (fun e => match e with EPriority _ _ x => Some x | _ => None end).
Definition push_promise_stream_id :=
  final 0 (fun e => match e with EPushPromise x => Some x | _ => None end).
Definition rst_stream_error_code :=
  final 0 (fun e => match e with ERstStream x => Some x | _ => None end).
Definition settings_id := final 0 (fun e => match e with ESettings x _ => Some x | _ => None end).
Definition settings_value := final 0 (fun e => match e with ESettings _ x => Some x | _ => None end).
Definition window_update_size_increment :=
  final 0 (fun e => match e with EWindowUpdate x => Some x | _ => None end).
