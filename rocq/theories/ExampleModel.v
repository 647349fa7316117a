(* Model of the handler that the documentation gives for heads,
   /repo/examples/http1_head_parsing.md:53-258.

   Strings and byte vectors are lists of bytes; the HashMap is an association
   list without duplicates; status codes and versions are numbers.  A panic of
   the handler (unwrap of the Err of String::from_utf8) is None.  The handler
   answers true to every call. *)

From Coq Require Import NArith List Bool Arith String.
From Verif Require Import Bytes Http1Model.
Import ListNotations.
Local Open Scope N_scope.

(* String::from_utf8(bytes).is_ok(): the byte sequences of the Unicode standard,
   table 3-7.  Standard library of Rust. *)
Definition within (lo hi b : byte) : bool := (lo <=? b) && (b <=? hi).
Fixpoint from_utf8_ok (s : list byte) : bool :=
  match s with
  | [] => true
  | a :: t =>
      if a <=? 127 then from_utf8_ok t
      else match t with
           | [] => false
           | b :: t =>
               if within 194 223 a then within 128 191 b && from_utf8_ok t
               else match t with
                    | [] => false
                    | c :: t =>
                        if a =? 224 then within 160 191 b && within 128 191 c && from_utf8_ok t
                        else if a =? 237 then within 128 159 b && within 128 191 c && from_utf8_ok t
                        else if within 225 239 a then within 128 191 b && within 128 191 c && from_utf8_ok t
                        else match t with
                             | [] => false
                             | d :: t =>
                                 (if a =? 240 then within 144 191 b
                                  else if within 241 243 a then within 128 191 b
                                  else if a =? 244 then within 128 143 b else false)
                                 && within 128 191 c && within 128 191 d && from_utf8_ok t
                             end
                    end
           end
  end.

(* HashMap<String,String>: get and insert.  Standard library of Rust. *)
Definition map_type := list (list byte * list byte).
Definition same_string (a b : list byte) : bool := if list_eq_dec N.eq_dec a b then true else false.
Fixpoint map_get (k : list byte) (m : map_type) : option (list byte) :=
  match m with
  | [] => None
  | (k', v) :: m' => if same_string k k' then Some v else map_get k m'
  end.
Definition map_insert (k v : list byte) (m : map_type) : map_type :=
  (k, v) :: filter (fun x => negb (same_string k (fst x))) m.

(* The values of http1::State that the handler uses,
   /repo/src/http1/parser_state.rs:349-419 *)
Inductive track := TNone | THeaderName | THeaderValue.

(* struct Handler, http1_head_parsing.md:60-96 *)
Record head := Head {
  x_header_name : list byte;
  x_header_value : list byte;
  x_headers : map_type;
  x_headers_finished : bool;
  x_initial_finished : bool;
  x_method : list byte;
  x_state : track;
  x_status : list byte;
  x_status_code : N;
  x_url : list byte;
  x_version_major : N;
  x_version_minor : N
}.

(* Handler::new, http1_head_parsing.md:100-115 *)
Definition head_new : head := Head [] [] [] false false [] TNone [] 0 [] 0 0.

(* Handler::flush_header, http1_head_parsing.md:117-127 *)
Definition flush_header (x : head) : option head :=
  let cleared m :=
    Head [] [] m (x_headers_finished x) (x_initial_finished x) (x_method x) (x_state x)
         (x_status x) (x_status_code x) (x_url x) (x_version_major x) (x_version_minor x) in
  if negb (List.length (x_header_name x) =? 0)%nat && negb (List.length (x_header_value x) =? 0)%nat then
    if from_utf8_ok (x_header_name x) && from_utf8_ok (x_header_value x)
    then Some (cleared (map_insert (x_header_name x) (x_header_value x) (x_headers x)))
    else None
  else Some (cleared (x_headers x)).

(* Handler::is_request, http1_head_parsing.md:129-131 *)
Definition is_request (x : head) : bool := negb (List.length (x_method x) =? 0)%nat.

(* on_header_name, http1_head_parsing.md:145-154 *)
Definition on_header_name (data : list byte) (x : head) : option head :=
  let extend x :=
    Head (x_header_name x ++ data) (x_header_value x) (x_headers x) (x_headers_finished x)
         (x_initial_finished x) (x_method x) (x_state x) (x_status x) (x_status_code x) (x_url x)
         (x_version_major x) (x_version_minor x) in
  let set_state x :=
    Head (x_header_name x) (x_header_value x) (x_headers x) (x_headers_finished x)
         (x_initial_finished x) (x_method x) THeaderName (x_status x) (x_status_code x) (x_url x)
         (x_version_major x) (x_version_minor x) in
  match x_state x with
  | THeaderValue => match flush_header x with Some y => Some (extend (set_state y)) | None => None end
  | _ => Some (extend x)
  end.

(* on_header_value, http1_head_parsing.md:157-161 *)
Definition on_header_value (data : list byte) (x : head) : head :=
  Head (x_header_name x) (x_header_value x ++ data) (x_headers x) (x_headers_finished x)
       (x_initial_finished x) (x_method x) THeaderValue (x_status x) (x_status_code x) (x_url x)
       (x_version_major x) (x_version_minor x).

(* on_headers_finished, http1_head_parsing.md:164-168 *)
Definition on_headers_finished (x : head) : option head :=
  flush_header
    (Head (x_header_name x) (x_header_value x) (x_headers x) true
          (x_initial_finished x) (x_method x) (x_state x) (x_status x) (x_status_code x) (x_url x)
          (x_version_major x) (x_version_minor x)).

(* on_initial_finished, http1_head_parsing.md:171-174 *)
Definition on_initial_finished (x : head) : head :=
  Head (x_header_name x) (x_header_value x) (x_headers x) (x_headers_finished x)
       true (x_method x) (x_state x) (x_status x) (x_status_code x) (x_url x)
       (x_version_major x) (x_version_minor x).

(* on_method, http1_head_parsing.md:177-180 *)
Definition on_method (data : list byte) (x : head) : head :=
  Head (x_header_name x) (x_header_value x) (x_headers x) (x_headers_finished x)
       (x_initial_finished x) (x_method x ++ data) (x_state x) (x_status x) (x_status_code x) (x_url x)
       (x_version_major x) (x_version_minor x).

(* on_status, http1_head_parsing.md:183-186 *)
Definition on_status (data : list byte) (x : head) : head :=
  Head (x_header_name x) (x_header_value x) (x_headers x) (x_headers_finished x)
       (x_initial_finished x) (x_method x) (x_state x) (x_status x ++ data) (x_status_code x) (x_url x)
       (x_version_major x) (x_version_minor x).

(* on_status_code, http1_head_parsing.md:189-192 *)
Definition on_status_code (code : N) (x : head) : head :=
  Head (x_header_name x) (x_header_value x) (x_headers x) (x_headers_finished x)
       (x_initial_finished x) (x_method x) (x_state x) (x_status x) code (x_url x)
       (x_version_major x) (x_version_minor x).

(* on_url, http1_head_parsing.md:195-198 *)
Definition on_url (data : list byte) (x : head) : head :=
  Head (x_header_name x) (x_header_value x) (x_headers x) (x_headers_finished x)
       (x_initial_finished x) (x_method x) (x_state x) (x_status x) (x_status_code x) (x_url x ++ data)
       (x_version_major x) (x_version_minor x).

(* on_version, http1_head_parsing.md:201-205 *)
Definition on_version (major minor : N) (x : head) : head :=
  Head (x_header_name x) (x_header_value x) (x_headers x) (x_headers_finished x)
       (x_initial_finished x) (x_method x) (x_state x) (x_status x) (x_status_code x) (x_url x)
       major minor.

(* One call; those the handler does not implement do nothing
   (/repo/src/http1/http_handler.rs:22-290). *)
Definition on_event (x : head) (e : event) : option head :=
  match e with
  | EData KHeaderName d => on_header_name d x
  | EData KHeaderValue d => Some (on_header_value d x)
  | EData KMethod d => Some (on_method d x)
  | EData KStatus d => Some (on_status d x)
  | EData KUrl d => Some (on_url d x)
  | EVersion major minor => Some (on_version major minor x)
  | EStatusCode code => Some (on_status_code code x)
  | EInitialFinished => Some (on_initial_finished x)
  | EHeadersFinished => on_headers_finished x
  | _ => Some x
  end.

(* The handler after a history of calls. *)
Fixpoint on_events (x : head) (l : list event) : option head :=
  match l with
  | [] => Some x
  | e :: l' => match on_event x e with Some x' => on_events x' l' | None => None end
  end.
