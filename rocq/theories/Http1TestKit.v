(* What the unit tests of the crate (Http1Tests.v) are written with:
   /repo/src/http1/test/mod.rs and /repo/src/test.rs. *)

From Coq Require Import NArith List Bool Arith String.
From Verif Require Import Bytes ByteStream Http1Model.
Import ListNotations.
Local Open Scope N_scope.

(* DebugHandler, /repo/src/http1/test/mod.rs:129-383: answers true always *)
Definition debug : handler := Handler (fun _ _ => true) (fun _ => None).
(* a handler that answers false to some calls,
   e.g. /repo/src/http1/test/request/callback.rs:24-29 *)
Definition refuses (f : event -> bool) : handler := Handler (fun _ e => negb (f e)) (fun _ => None).

(* The fields of DebugHandler, /repo/src/http1/test/mod.rs:129-190 *)
Definition text (k : dkind) (log : list event) : list byte :=
  flat_map (fun e =>
    match e with
    | EData k' d =>
        match k, k' with
        | KMethod, KMethod | KUrl, KUrl | KStatus, KStatus | KHeaderName, KHeaderName
        | KHeaderValue, KHeaderValue | KChunkData, KChunkData | KChunkExtName, KChunkExtName
        | KChunkExtValue, KChunkExtValue | KMultipartData, KMultipartData
        | KUrlName, KUrlName | KUrlValue, KUrlValue => d
        | _, _ => []
        end
    | _ => []
    end) log.
Definition final (f : event -> option N) (log : list event) : N :=
  fold_left (fun v e => match f e with Some v' => v' | None => v end) log 0.
Definition chunk_length := final (fun e => match e with EChunkLength n => Some n | _ => None end).
Definition status_code := final (fun e => match e with EStatusCode n => Some n | _ => None end).
Definition version_major := final (fun e => match e with EVersion n _ => Some n | _ => None end).
Definition version_minor := final (fun e => match e with EVersion _ n => Some n | _ => None end).

(* A test: preparations; calls of resume after which the state is compared
   (assert_eos and its likes, /repo/src/http1/test/mod.rs:33-74, 98-112); calls
   after which it is not (iter_assert_eos, lines 76-96). *)
Inductive act :=
| Do (f : parser -> parser)
| At (s : list byte)
| By (s : list byte).

Fixpoint play (h : handler) (p : parser) (log : list event) (acts : list act)
  : list (result * option pstate) * list event :=
  match acts with
  | [] => ([], log)
  | Do f :: more => play h (f p) log more
  | At s :: more =>
      let '(p, log, r) := resume h p log s in
      let '(seen, log) := play h p log more in ((r, Some (state p)) :: seen, log)
  | By s :: more =>
      let '(p, log, r) := resume h p log s in
      let '(seen, log) := play h p log more in ((r, None) :: seen, log)
  end.

(* Sets of bytes, /repo/src/test.rs:19-67 *)
Definition range (a b : N) : list byte :=
  map (fun i => a + N.of_nat i) (seq 0 (N.to_nat (b - a))).
Definition yes_of (o : option bool) : bool := match o with Some b => b | None => false end.
(* is_alpha! of the crate byte-slice, used in /repo/src/http1/test/head/header_name.rs:96: a letter *)
Definition is_alpha (b : byte) : bool := (64 <? b) && (b <? 91) || (96 <? b) && (b <? 123).
Definition alpha_lower_vec := range 97 123.
Definition alpha_upper_vec := range 65 91.
Definition control_vec := filter (fun x => (x <? 32) || (x =? 127)) (range 0 128).
Definition digit_vec := range 48 58.
Definition header_field_vec := filter (fun x => yes_of (is_header_field x)) (range 0 128).
Definition non_control_vec := filter (fun x => (31 <? x) && negb (x =? 127)) (range 0 255).
Definition non_digit_vec := filter (fun x => negb (is_digit x)) (range 0 255).
Definition non_token_vec := filter (fun x => negb (yes_of (is_token x))) (range 0 255).
Definition non_visible_7bit_vec := filter (fun x => negb (is_visible_7bit x)) (range 0 255).
Definition quoted_header_field_vec :=
  filter (fun x => yes_of (is_quoted_header_field x)) (range 0 255).
Definition token_vec := filter (fun x => yes_of (is_token x)) (range 0 128).
Definition visible_7bit_vec := filter is_visible_7bit (range 0 128).
