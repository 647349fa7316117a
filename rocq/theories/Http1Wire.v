(* Well-formed HTTP/1 messages, their rendering to the wire, and what an
   observer of the handler has to see.  Vocabulary of the round-trip
   properties; independent of the parser model (only the type of observations
   is shared). *)

From Coq Require Import NArith List Bool Arith String.
From Verif Require Import Bytes Http1Model Http1Spec Http1Protocol.
Import ListNotations.
Local Open Scope N_scope.

(* ASCII lower case. *)
Definition lower_case (b : byte) : byte := if (65 <=? b) && (b <=? 90) then b + 32 else b.

(* 0x21 to 0x7E *)
Definition visible_byte (b : byte) : bool := (33 <=? b) && (b <=? 126).

(* Optional white space: spaces and tabs. *)
Definition padding (w : list byte) : Prop := Forall (fun b => b = 32 \/ b = 9) w.

(* Decimal and hexadecimal numerals. *)
Definition digit (b : byte) : Prop := 48 <= b <= 57.
Definition decimal (ds : list byte) : N := fold_left (fun n d => 10 * n + (d - 48)) ds 0.
Definition hexdigit (b : byte) : Prop := 48 <= b <= 57 \/ 65 <= b <= 70 \/ 97 <= b <= 102.
Definition hexval (b : byte) : N :=
  if b <=? 57 then b - 48 else if b <=? 70 then b - 55 else b - 87.
Definition hexadecimal (ds : list byte) : N := fold_left (fun n d => 16 * n + hexval d) ds 0.

(* ------------------------------------------------------------------ *)
(* Header fields                                                        *)
(* ------------------------------------------------------------------ *)

(* TAB, space and everything visible, 0x80 to 0xFE included. *)
Definition field_byte (b : byte) : bool := text_byte b && (b <? 255).

(* Text with quoted strings in it: inside quotes, a backslash is followed by a
   byte from 0x20 to 0x7A; quotes are closed. *)
Inductive qmode := Plain | Quoted | Escaped.
Fixpoint field_text_ok (m : qmode) (v : list byte) : bool :=
  match v with
  | [] => match m with Plain => true | _ => false end
  | b :: v' =>
      match m with
      | Plain => if b =? 34 then field_text_ok Quoted v' else field_byte b && field_text_ok Plain v'
      | Quoted =>
          if b =? 34 then field_text_ok Plain v'
          else if b =? 92 then field_text_ok Escaped v'
          else field_byte b && field_text_ok Quoted v'
      | Escaped => (32 <=? b) && (b <=? 122) && field_text_ok Quoted v'
      end
  end.

(* Not empty, and starting with a visible byte. *)
Definition starts_visible (v : list byte) : Prop :=
  match v with [] => False | b :: _ => visible_byte b = true end.

(* A header field: name, white space before the value, value, and lines that
   continue the value, each introduced by a space or tab. *)
Record header := Header {
  h_name : list byte;
  h_pad : list byte;
  h_value : list byte;
  h_folds : list (byte * list byte)
}.

Definition wf_header (f : header) : Prop :=
  h_name f <> [] /\ Forall (fun b => tchar b = true) (h_name f) /\
  padding (h_pad f) /\
  starts_visible (h_value f) /\ field_text_ok Plain (h_value f) = true /\
  Forall (fun '(c, l) => (c = 32 \/ c = 9) /\ field_text_ok Plain l = true) (h_folds f).

Definition render_header (f : header) : list byte :=
  h_name f ++ [58] ++ h_pad f ++ h_value f ++
  flat_map (fun '(c, l) => crlf ++ c :: l) (h_folds f) ++ crlf.

Definition seen_header (f : header) : list fevent :=
  map (FByte KHeaderName) (map lower_case (h_name f)) ++
  map (FByte KHeaderValue) (h_value f ++ flat_map snd (h_folds f)).

(* Header fields and the empty line after them. *)
Definition render_headers (fs : list header) : list byte := flat_map render_header fs ++ crlf.
Definition seen_headers (fs : list header) : list fevent :=
  flat_map seen_header fs ++ [FEv EHeadersFinished].

(* ------------------------------------------------------------------ *)
(* Requests and responses                                               *)
(* ------------------------------------------------------------------ *)

(* A version: digits before and after the period. *)
Definition wf_version (v : list byte * list byte) : Prop :=
  (1 <= List.length (fst v) <= 3)%nat /\ Forall digit (fst v) /\
  (1 <= List.length (snd v) <= 3)%nat /\ Forall digit (snd v).
Definition render_version (v : list byte * list byte) : list byte :=
  bs "HTTP/" ++ fst v ++ [46] ++ snd v.
Definition seen_version (v : list byte * list byte) : fevent :=
  FEv (EVersion (decimal (fst v)) (decimal (snd v))).

(* White space (empty lines) that may precede a message. *)
Definition blank (w : list byte) : Prop := Forall (fun b => b = 13 \/ b = 10 \/ b = 9 \/ b = 32) w.

Record request := Request {
  q_blank : list byte;
  q_method : list byte;
  q_url : list byte;
  q_version : list byte * list byte;
  q_headers : list header
}.

Definition wf_request (q : request) : Prop :=
  blank (q_blank q) /\
  q_method q <> [] /\ Forall (fun b : byte => 65 <= b <= 90) (q_method q) /\
  q_url q <> [] /\ Forall (fun b => visible_byte b = true) (q_url q) /\
  wf_version (q_version q) /\ Forall wf_header (q_headers q).

Definition render_request (q : request) : list byte :=
  q_blank q ++ q_method q ++ [32] ++ q_url q ++ [32] ++ render_version (q_version q) ++ crlf ++
  render_headers (q_headers q).

Definition seen_request (q : request) : list fevent :=
  map (FByte KMethod) (q_method q) ++ map (FByte KUrl) (q_url q) ++
  [seen_version (q_version q); FEv EInitialFinished] ++ seen_headers (q_headers q).

Record response := Response {
  r_blank : list byte;
  r_version : list byte * list byte;
  r_code : list byte;
  r_reason : list byte;
  r_headers : list header
}.

Definition wf_response (r : response) : Prop :=
  blank (r_blank r) /\ wf_version (r_version r) /\
  List.length (r_code r) = 3%nat /\ Forall digit (r_code r) /\
  r_reason r <> [] /\ Forall (fun b : byte => 32 <= b /\ b <> 127) (r_reason r) /\
  Forall wf_header (r_headers r).

Definition render_response (r : response) : list byte :=
  r_blank r ++ render_version (r_version r) ++ [32] ++ r_code r ++ [32] ++ r_reason r ++ crlf ++
  render_headers (r_headers r).

Definition seen_response (r : response) : list fevent :=
  [seen_version (r_version r); FEv (EStatusCode (decimal (r_code r)))] ++
  map (FByte KStatus) (r_reason r) ++ [FEv EInitialFinished] ++ seen_headers (r_headers r).

(* ------------------------------------------------------------------ *)
(* Chunked bodies                                                       *)
(* ------------------------------------------------------------------ *)

(* A chunk extension: white space, name, and perhaps white space and a value.
   Quotes of the value are not reported, nor the backslashes of escapes. *)
Record chunk_ext := Ext {
  x_pad : list byte;
  x_name : list byte;
  x_value : option (list byte * list byte)
}.

(* Semicolons occur inside quotes only. *)
Fixpoint no_bare_semicolon (m : qmode) (v : list byte) : bool :=
  match v with
  | [] => true
  | b :: v' =>
      match m with
      | Plain => if b =? 34 then no_bare_semicolon Quoted v'
                 else negb (b =? 59) && no_bare_semicolon Plain v'
      | Quoted =>
          if b =? 34 then no_bare_semicolon Plain v'
          else if b =? 92 then no_bare_semicolon Escaped v' else no_bare_semicolon Quoted v'
      | Escaped => no_bare_semicolon Quoted v'
      end
  end.

Fixpoint unquoted (m : qmode) (v : list byte) : list byte :=
  match v with
  | [] => []
  | b :: v' =>
      match m with
      | Plain => if b =? 34 then unquoted Quoted v' else b :: unquoted Plain v'
      | Quoted =>
          if b =? 34 then unquoted Plain v'
          else if b =? 92 then unquoted Escaped v' else b :: unquoted Quoted v'
      | Escaped => b :: unquoted Quoted v'
      end
  end.

Definition wf_ext (x : chunk_ext) : Prop :=
  padding (x_pad x) /\ x_name x <> [] /\ Forall (fun b => tchar b = true) (x_name x) /\
  match x_value x with
  | None => True
  | Some (w, v) =>
      padding w /\ starts_visible v /\ field_text_ok Plain v = true /\
      no_bare_semicolon Plain v = true
  end.

Definition render_ext (x : chunk_ext) : list byte :=
  [59] ++ x_pad x ++ x_name x ++
  match x_value x with None => [] | Some (w, v) => [61] ++ w ++ v end.

Definition seen_ext (x : chunk_ext) : list fevent :=
  map (FByte KChunkExtName) (map lower_case (x_name x)) ++
  match x_value x with None => [] | Some (_, v) => map (FByte KChunkExtValue) (unquoted Plain v) end ++
  [FEv EChunkExtFinished].

(* A chunk: its length in hexadecimal, extensions, data. *)
Record chunk := Chunk {
  c_size : list byte;
  c_exts : list chunk_ext;
  c_data : list byte
}.

Definition wf_chunk (c : chunk) : Prop :=
  (1 <= List.length (c_size c) <= 8)%nat /\ Forall hexdigit (c_size c) /\
  hd 48 (c_size c) <> 48 /\ hexadecimal (c_size c) = N.of_nat (List.length (c_data c)) /\
  Forall wf_ext (c_exts c).

Definition render_chunk (c : chunk) : list byte :=
  c_size c ++ flat_map render_ext (c_exts c) ++ crlf ++ c_data c ++ crlf.

Definition seen_chunk (c : chunk) : list fevent :=
  [FEv EChunkBegin; FEv (EChunkLength (N.of_nat (List.length (c_data c))))] ++
  flat_map seen_ext (c_exts c) ++ [FEv EChunkExtsFinished] ++ map (FByte KChunkData) (c_data c).

(* Chunks, the final chunk "0", trailers. *)
Definition render_chunked (cs : list chunk) (trailers : list header) : list byte :=
  flat_map render_chunk cs ++ [48] ++ crlf ++ render_headers trailers.
Definition seen_chunked (cs : list chunk) (trailers : list header) : list fevent :=
  flat_map seen_chunk cs ++ [FEv EChunkBegin; FEv (EChunkLength 0)] ++ seen_headers trailers ++
  [FEv EBodyFinished].

(* ------------------------------------------------------------------ *)
(* Multipart bodies                                                     *)
(* ------------------------------------------------------------------ *)

(* A part: header fields, data, and the answer of the handler to
   content_length(). *)
Record part := Part {
  m_headers : list header;
  m_data : list byte;
  m_answer : option N
}.

(* Data of a part ended by the boundary only: every CR is followed by a byte
   of the data other than CR and LF.  (In particular: no CR at all.) *)
Fixpoint tame (d : list byte) : bool :=
  match d with
  | [] => true
  | b :: d' =>
      (if b =? 13 then match d' with [] => false | c :: _ => negb (c =? 10) && negb (c =? 13) end
       else true) && tame d'
  end.

(* A part with header fields and data, no declared length. *)
Definition plain_part (x : list header * list byte) : part := Part (fst x) (snd x) None.

Definition wf_part (p : part) : Prop :=
  Forall wf_header (m_headers p) /\
  match m_answer p with
  | Some n => n = N.of_nat (List.length (m_data p))
  | None => tame (m_data p) = true
  end.

Definition render_part (bd : list byte) (p : part) : list byte :=
  crlf ++ render_headers (m_headers p) ++ m_data p ++ crlf ++ bs "--" ++ bd.
Definition render_multipart (bd : list byte) (ps : list part) : list byte :=
  bs "--" ++ bd ++ flat_map (render_part bd) ps ++ bs "--".

Definition seen_part_head (p : part) : list fevent :=
  [FEv EMultipartBegin] ++ seen_headers (m_headers p).
Definition seen_part (p : part) : list fevent :=
  seen_part_head p ++ [FEv EContentLength] ++ map (FByte KMultipartData) (m_data p).
Definition seen_multipart (ps : list part) : list fevent :=
  flat_map seen_part ps ++ [FEv EBodyFinished].

(* Asked after the header fields of a part, having seen all that precedes, the
   handler gives the answer recorded with the part. *)
Fixpoint answers (clen : list fevent -> option N) (seen : list fevent) (ps : list part) : Prop :=
  match ps with
  | [] => True
  | p :: ps' => clen (seen ++ seen_part_head p) = m_answer p /\ answers clen (seen ++ seen_part p) ps'
  end.

(* ------------------------------------------------------------------ *)
(* URL-encoded bodies                                                   *)
(* ------------------------------------------------------------------ *)

(* encodes d w: the bytes d may be written as w. *)
Inductive encodes : list byte -> list byte -> Prop :=
| enc_nil : encodes [] []
| enc_literal b d w :
    visible_byte b = true -> ~ In b (bs "%+=&;") -> encodes d w -> encodes (b :: d) (b :: w)
| enc_plus d w : encodes d w -> encodes (32 :: d) (43 :: w)
| enc_escape x y d w :
    hexdigit x -> hexdigit y -> encodes d w -> encodes (16 * hexval x + hexval y :: d) (37 :: x :: y :: w).

(* A pair is a name with or without value. *)
Definition url_pair := (list byte * option (list byte))%type.

Inductive pair_wire : url_pair -> list byte -> Prop :=
| pair_name n w : w <> [] -> encodes n w -> pair_wire (n, None) w
| pair_value n v w1 w2 : encodes n w1 -> encodes v w2 -> pair_wire (n, Some v) (w1 ++ [61] ++ w2).

(* Pairs joined by '&' or ';'. *)
Inductive body_wire : list url_pair -> list byte -> Prop :=
| body_nil : body_wire [] []
| body_one p w : pair_wire p w -> body_wire [p] w
| body_cons p ps w1 sep w2 :
    pair_wire p w1 -> sep = 38 \/ sep = 59 -> ps <> [] -> body_wire ps w2 ->
    body_wire (p :: ps) (w1 ++ [sep] ++ w2).

Definition seen_pair (p : url_pair) : list fevent :=
  [FEv EUrlBegin] ++ map (FByte KUrlName) (fst p) ++
  match snd p with None => [] | Some v => map (FByte KUrlValue) v end.
Definition seen_pairs (ps : list url_pair) : list fevent :=
  flat_map seen_pair ps ++ [FEv EBodyFinished].
