(* The crate's integration tests of the HTTP/1 parser, /repo/tests, carried out in
   the model.  Not part of any proof.  Of /repo/tests/http1_multipart.rs only the
   head is here: the body, with two images, has 101106 bytes. *)

From Coq Require Import NArith List Bool Arith String.
From Verif Require Import Bytes ByteStream Http1Model Http1TestKit.
Import ListNotations.
Local Open Scope N_scope.
Local Open Scope list_scope.

(* Headers as the handlers of the tests collect them: a name is put together with
   the value that follows, /repo/tests/http1_head.rs:39-82.  URL encoded names and
   values likewise, /repo/tests/http1_url_encoded.rs:28-79. *)
Fixpoint pairs (n v : dkind) (name value : list byte) (in_value : bool) (log : list event)
  : list (list byte * list byte) :=
  match log with
  | [] => match value with [] => [] | _ => [(name, value)] end
  | e :: log' =>
      if negb (match text n [e] with [] => true | _ => false end) then
        if in_value then (name, value) :: pairs n v (text n [e]) [] false log'
        else pairs n v (name ++ text n [e]) value false log'
      else if negb (match text v [e] with [] => true | _ => false end) then
        pairs n v name (value ++ text v [e]) true log'
      else pairs n v name value in_value log'
  end.
Definition headers := pairs KHeaderName KHeaderValue [] [] false.
Definition parameters := pairs KUrlName KUrlValue [] [] false.

(* /repo/tests/http1_data/multipart.dat, the head *)
Definition multipart_head : list byte :=
  bs "POST /multipart HTTP/1.1" ++ [13; 10] ++
  bs "Host: localhost" ++ [13; 10] ++
  bs "Connection: keep-alive" ++ [13; 10] ++
  bs "Content-Length: 101106" ++ [13; 10] ++
  bs "Cache-Control: max-age=0" ++ [13; 10] ++
  bs "Origin: null" ++ [13; 10] ++
  bs "Upgrade-Insecure-Requests: 1" ++ [13; 10] ++
  bs "User-Agent: Mozilla/5.0 (Macintosh; Intel Mac OS X 10_12_1) AppleWebKit/537.36 (KHTML, like Gecko) Chrome/54.0.2840.87 Safari/537.36" ++ [13; 10] ++
  bs "Content-Type: multipart/form-data; boundary=----WebKitFormBoundaryPplB3C4KqDmwKzm4" ++ [13; 10] ++
  bs "Accept: text/html,application/xhtml+xml,application/xml;q=0.9,image/webp,*/*;q=0.8" ++ [13; 10] ++
  bs "Accept-Encoding: gzip, deflate, br" ++ [13; 10] ++
  bs "Accept-Language: en-US,en;q=0.8" ++ [13; 10] ++
  [13; 10].
(* /repo/tests/http1_data/chunk_encoded.dat *)
Definition chunk_encoded : list byte :=
  bs "POST /multipart HTTP/1.1" ++ [13; 10] ++
  bs "Host: localhost" ++ [13; 10] ++
  bs "Connection: keep-alive" ++ [13; 10] ++
  bs "Content-Length: 101106" ++ [13; 10] ++
  bs "Cache-Control: max-age=0" ++ [13; 10] ++
  bs "Origin: null" ++ [13; 10] ++
  bs "Upgrade-Insecure-Requests: 1" ++ [13; 10] ++
  bs "User-Agent: Mozilla/5.0 (Macintosh; Intel Mac OS X 10_12_1) AppleWebKit/537.36 (KHTML, like Gecko) Chrome/54.0.2840.87 Safari/537.36" ++ [13; 10] ++
  bs "Accept: text/html,application/xhtml+xml,application/xml;q=0.9,image/webp,*/*;q=0.8" ++ [13; 10] ++
  bs "Accept-Encoding: gzip, deflate, br" ++ [13; 10] ++
  bs "Accept-Language: en-US,en;q=0.8" ++ [13; 10] ++
  [13; 10] ++
  bs "17" ++ [13; 10] ++
  bs "This is the first chunk" ++ [13; 10] ++
  bs "18; gzip; bzip; tar; extension=""complex""" ++ [13; 10] ++
  bs "This is the second chunk" ++ [13; 10] ++
  bs "0" ++ [13; 10] ++
  bs "Trailer1: This is trailer 1" ++ [13; 10] ++
  bs "Trailer2: This is trailer 2" ++ [13; 10] ++
  [13; 10].
(* /repo/tests/http1_data/url_encoded.dat *)
Definition url_encoded : list byte :=
  bs "POST /url-encoded HTTP/1.1" ++ [13; 10] ++
  bs "Host: localhost" ++ [13; 10] ++
  bs "Connection: keep-alive" ++ [13; 10] ++
  bs "Content-Length: 54" ++ [13; 10] ++
  bs "Cache-Control: max-age=0" ++ [13; 10] ++
  bs "Origin: null" ++ [13; 10] ++
  bs "Upgrade-Insecure-Requests: 1" ++ [13; 10] ++
  bs "User-Agent: Mozilla/5.0 (Macintosh; Intel Mac OS X 10_12_1) AppleWebKit/537.36 (KHTML, like Gecko) Chrome/54.0.2840.87 Safari/537.36" ++ [13; 10] ++
  bs "Content-Type: application/x-www-form-urlencoded" ++ [13; 10] ++
  bs "Accept: text/html,application/xhtml+xml,application/xml;q=0.9,image/webp,*/*;q=0.8" ++ [13; 10] ++
  bs "Accept-Encoding: gzip, deflate, br" ++ [13; 10] ++
  bs "Accept-Language: en-US,en;q=0.8" ++ [13; 10] ++
  [13; 10] ++
  bs "first_name=Ada&last_name=Lovelace&age=36&gender=Female" ++ [13; 10].

(* /repo/tests/http1_head.rs:104-190 *)
Example head_test :
  let '(p, log, r) := resume debug new [] multipart_head in
  (text KMethod log, text KUrl log, version_major log, version_minor log) =
    (bs "POST", bs "/multipart", 1, 1) /\
  headers log =
    [(bs "host", bs "localhost"); (bs "connection", bs "keep-alive");
     (bs "content-length", bs "101106"); (bs "cache-control", bs "max-age=0");
     (bs "origin", bs "null"); (bs "upgrade-insecure-requests", bs "1");
     (bs "user-agent", bs "Mozilla/5.0 (Macintosh; Intel Mac OS X 10_12_1) AppleWebKit/537.36 (KHTML, like Gecko) Chrome/54.0.2840.87 Safari/537.36");
     (bs "content-type", bs "multipart/form-data; boundary=----WebKitFormBoundaryPplB3C4KqDmwKzm4");
     (bs "accept", bs "text/html,application/xhtml+xml,application/xml;q=0.9,image/webp,*/*;q=0.8");
     (bs "accept-encoding", bs "gzip, deflate, br");
     (bs "accept-language", bs "en-US,en;q=0.8")].
Proof. vm_compute. split; reflexivity. Qed.

(* The handler of /repo/tests/http1_chunk_encoded.rs:61-72 stops at every chunk but
   the first. *)
Definition begun (log : list event) : nat :=
  List.length (filter (fun e => match e with EChunkBegin => true | _ => false end) log).
Definition stop_at_chunk : handler :=
  Handler (fun log e => match e with EChunkBegin => (begun log =? 0)%nat | _ => true end)
          (fun _ => None).
(* What is reported of one chunk; the handler is cleared after each call. *)
Definition of_chunk (log : list event) :=
  (text KChunkExtName log ++ text KChunkExtValue log, chunk_length log, text KChunkData log, headers log).

(* /repo/tests/http1_chunk_encoded.rs:132-263 (the extensions there are in the order
   of the calls; there is one value, and it comes last) *)
Example chunk_encoded_test :
  match resume debug new [] chunk_encoded with
  | (_, _, ROk (SFinished n)) =>
      let s := skipn n chunk_encoded in
      match resume stop_at_chunk (init_chunked new) [] s with
      | (p, log, ROk (SCallback n)) =>
          of_chunk log = ([], 23, bs "This is the first chunk", []) /\
          let s := skipn n s in
          match resume stop_at_chunk p [EChunkBegin] s with
          | (p, log, ROk (SCallback n)) =>
              of_chunk log = (bs "gzipbziptarextensioncomplex", 24, bs "This is the second chunk", []) /\
              let s := skipn n s in
              match resume stop_at_chunk p [EChunkBegin] s with
              | (p, log, ROk (SFinished n)) =>
                  of_chunk log = ([], 0, [], [(bs "trailer1", bs "This is trailer 1");
                                              (bs "trailer2", bs "This is trailer 2")])
              | _ => False
              end
          | _ => False
          end
      | _ => False
      end
  | _ => False
  end.
Proof. vm_compute. repeat split. Qed.

(* /repo/tests/http1_url_encoded.rs:83-134 *)
Example url_encoded_test :
  match resume debug new [] url_encoded with
  | (_, _, ROk (SFinished n)) =>
      let s := skipn n url_encoded in
      match resume debug (set_length (init_url_encoded new) (N.of_nat (List.length s) - 2)) [] s with
      | (_, log, ROk (SFinished _)) =>
          parameters log = [(bs "first_name", bs "Ada"); (bs "last_name", bs "Lovelace");
                            (bs "age", bs "36"); (bs "gender", bs "Female")]
      | _ => False
      end
  | _ => False
  end.
Proof. vm_compute. reflexivity. Qed.
