(* The crate's own unit tests of the HTTP/1 parser, /repo/src/http1/test, carried
   out in the model.  Not part of any proof: they compare the model with what the
   authors of the crate expect of the code.  The tests whose loops range over
   several bytes are examples over the same bytes. *)

From Coq Require Import NArith List Bool Arith String.
From Verif Require Import Bytes ByteStream Http1Model Http1TestKit.
Import ListNotations.
Local Open Scope N_scope.

(* /repo/src/http1/test/chunked/callback.rs:21-41 *)
Example chunked_callback_on_chunk_begin :
  fst (play (refuses (fun e => match e with EChunkBegin => true | _ => false end)) new []
     [Do init_chunked;
      At (bs "F")]) =
    [(ROk (SCallback 1), Some StChunkLength2)].
Proof. vm_compute. reflexivity. Qed.

(* /repo/src/http1/test/chunked/callback.rs:44-72 *)
Example chunked_callback_on_chunk_data :
  fst (play (refuses (fun e => match e with EData KChunkData _ => true | _ => false end)) new []
     [Do init_chunked;
      At (bs "F" ++ [13; 10]);
      At (bs "X")]) =
    [(ROk (SEos 3), Some StChunkData);
      (ROk (SCallback 1), Some StChunkData)].
Proof. vm_compute. reflexivity. Qed.

(* /repo/src/http1/test/chunked/callback.rs:75-95 *)
Example chunked_callback_on_chunk_extension_finished :
  fst (play (refuses (fun e => match e with EChunkExtFinished => true | _ => false end)) new []
     [Do init_chunked;
      At (bs "F;extension;")]) =
    [(ROk (SCallback 12), Some StStripChunkExtensionName)].
Proof. vm_compute. reflexivity. Qed.

(* /repo/src/http1/test/chunked/callback.rs:98-118 *)
Example chunked_callback_on_chunk_extension_name :
  fst (play (refuses (fun e => match e with EData KChunkExtName _ => true | _ => false end)) new []
     [Do init_chunked;
      At (bs "F;extension")]) =
    [(ROk (SCallback 11), Some StLowerChunkExtensionName)].
Proof. vm_compute. reflexivity. Qed.

(* /repo/src/http1/test/chunked/callback.rs:121-141 *)
Example chunked_callback_on_chunk_extension_value :
  fst (play (refuses (fun e => match e with EData KChunkExtValue _ => true | _ => false end)) new []
     [Do init_chunked;
      At (bs "F;extension=v")]) =
    [(ROk (SCallback 13), Some StChunkExtensionValue)].
Proof. vm_compute. reflexivity. Qed.

(* /repo/src/http1/test/chunked/callback.rs:144-164 *)
Example chunked_callback_on_chunk_extensions_finished :
  fst (play (refuses (fun e => match e with EChunkExtsFinished => true | _ => false end)) new []
     [Do init_chunked;
      At (bs "F" ++ [13])]) =
    [(ROk (SCallback 2), Some StChunkLengthLf)].
Proof. vm_compute. reflexivity. Qed.

(* /repo/src/http1/test/chunked/callback.rs:167-187 *)
Example chunked_callback_on_chunk_length :
  fst (play (refuses (fun e => match e with EChunkLength _ => true | _ => false end)) new []
     [Do init_chunked;
      At (bs "F" ++ [13])]) =
    [(ROk (SCallback 2), Some StChunkExtensionsFinished)].
Proof. vm_compute. reflexivity. Qed.

(* /repo/src/http1/test/chunked/data.rs:39-54 *)
Example chunked_data_entire_chunk :
  (let '(seen, log) := play debug new []
     [Do init_chunked;
      At (bs "C" ++ [13; 10]);
      At (bs "Hello, Rust!" ++ [13; 10])] in
   (seen, text KChunkData log)) =
    ([(ROk (SEos 3), Some StChunkData);
      (ROk (SEos 14), Some StChunkLength1)], bs "Hello, Rust!").
Proof. vm_compute. reflexivity. Qed.

(* /repo/src/http1/test/chunked/data.rs:57-83 *)
Example chunked_data_entire_iter :
  (let '(seen, log) := play debug new []
     [Do init_chunked;
      At (bs "C" ++ [13; 10]);
      By [72];
      By [101];
      By [108];
      By [108];
      By [111];
      By [44];
      By [32];
      By [82];
      By [117];
      By [115];
      By [116];
      By [33];
      By [13];
      By [10]] in
   (seen, text KChunkData log)) =
    ([(ROk (SEos 3), Some StChunkData);
      (ROk (SEos 1), None);
      (ROk (SEos 1), None);
      (ROk (SEos 1), None);
      (ROk (SEos 1), None);
      (ROk (SEos 1), None);
      (ROk (SEos 1), None);
      (ROk (SEos 1), None);
      (ROk (SEos 1), None);
      (ROk (SEos 1), None);
      (ROk (SEos 1), None);
      (ROk (SEos 1), None);
      (ROk (SEos 1), None);
      (ROk (SEos 1), None);
      (ROk (SEos 1), None)], bs "Hello, Rust!").
Proof. vm_compute. reflexivity. Qed.

(* /repo/src/http1/test/chunked/data.rs:86-107 *)
Example chunked_data_state_chunk_length1 :
  fst (play debug new []
     [Do init_chunked;
      At (bs "C" ++ [13; 10]);
      By [72];
      By [101];
      By [108];
      By [108];
      By [111];
      By [44];
      By [32];
      By [82];
      By [117];
      By [115];
      By [116];
      By [33];
      By [13];
      By [10]]) =
    [(ROk (SEos 3), Some StChunkData);
      (ROk (SEos 1), None);
      (ROk (SEos 1), None);
      (ROk (SEos 1), None);
      (ROk (SEos 1), None);
      (ROk (SEos 1), None);
      (ROk (SEos 1), None);
      (ROk (SEos 1), None);
      (ROk (SEos 1), None);
      (ROk (SEos 1), None);
      (ROk (SEos 1), None);
      (ROk (SEos 1), None);
      (ROk (SEos 1), None);
      (ROk (SEos 1), None);
      (ROk (SEos 1), None)].
Proof. vm_compute. reflexivity. Qed.

(* /repo/src/http1/test/chunked/extension_name.rs:40-52 *)
Example chunked_extension_name_allowed :
  map (fun b => fst (play debug new []
     [Do init_chunked;
      At (bs "F;");
      At ([b])])) (token_vec) =
  map (fun b =>
    [(ROk (SEos 2), Some StStripChunkExtensionName);
      (ROk (SEos 1), Some StLowerChunkExtensionName)]) (token_vec).
Proof. vm_compute. reflexivity. Qed.

(* /repo/src/http1/test/chunked/extension_name.rs:55-77 *)
Example chunked_extension_name_entire_iter :
  (let '(seen, log) := play debug new []
     [Do init_chunked;
      At (bs "F;");
      By [69];
      By [120];
      By [116];
      By [49];
      By [59];
      By [69];
      By [120];
      By [116];
      By [50];
      By [13]] in
   (seen, text KChunkExtName log)) =
    ([(ROk (SEos 2), Some StStripChunkExtensionName);
      (ROk (SEos 1), None);
      (ROk (SEos 1), None);
      (ROk (SEos 1), None);
      (ROk (SEos 1), None);
      (ROk (SEos 1), None);
      (ROk (SEos 1), None);
      (ROk (SEos 1), None);
      (ROk (SEos 1), None);
      (ROk (SEos 1), None);
      (ROk (SEos 1), None)], bs "ext1ext2").
Proof. vm_compute. reflexivity. Qed.

(* /repo/src/http1/test/chunked/extension_name.rs:80-97 *)
Example chunked_extension_name_not_allowed :
  map (fun b => fst (play debug new []
     [Do init_chunked;
      At (bs "F;");
      At ([b])])) (filter (fun x => negb (x =? 59)) (filter (fun x => negb (x =? 61)) (filter (fun x => negb (x =? 32)) (filter (fun x => negb (x =? 9)) (filter (fun x => negb (x =? 13)) (non_token_vec)))))) =
  map (fun b =>
    [(ROk (SEos 2), Some StStripChunkExtensionName);
      (RErr (ErChunkExtensionName (b)), Some StDead)]) (filter (fun x => negb (x =? 59)) (filter (fun x => negb (x =? 61)) (filter (fun x => negb (x =? 32)) (filter (fun x => negb (x =? 9)) (filter (fun x => negb (x =? 13)) (non_token_vec)))))).
Proof. vm_compute. reflexivity. Qed.

(* /repo/src/http1/test/chunked/extension_name.rs:100-109 *)
Example chunked_extension_name_state_chunk_extensions_finished :
  fst (play debug new []
     [Do init_chunked;
      At (bs "F;");
      By [69];
      By [13]]) =
    [(ROk (SEos 2), Some StStripChunkExtensionName);
      (ROk (SEos 1), None);
      (ROk (SEos 1), None)].
Proof. vm_compute. reflexivity. Qed.

(* /repo/src/http1/test/chunked/extension_name.rs:112-121 *)
Example chunked_extension_name_state_strip_chunk_extension_name1 :
  fst (play debug new []
     [Do init_chunked;
      At (bs "F;");
      By [69];
      By [59]]) =
    [(ROk (SEos 2), Some StStripChunkExtensionName);
      (ROk (SEos 1), None);
      (ROk (SEos 1), None)].
Proof. vm_compute. reflexivity. Qed.

(* /repo/src/http1/test/chunked/extension_name.rs:124-133 *)
Example chunked_extension_name_state_strip_chunk_extension_name2 :
  fst (play debug new []
     [Do init_chunked;
      At (bs "F;");
      By [32];
      By [9]]) =
    [(ROk (SEos 2), Some StStripChunkExtensionName);
      (ROk (SEos 1), None);
      (ROk (SEos 1), None)].
Proof. vm_compute. reflexivity. Qed.

(* /repo/src/http1/test/chunked/extension_name.rs:136-145 *)
Example chunked_extension_name_state_strip_chunk_extension_value :
  fst (play debug new []
     [Do init_chunked;
      At (bs "F;");
      By [69];
      By [61]]) =
    [(ROk (SEos 2), Some StStripChunkExtensionName);
      (ROk (SEos 1), None);
      (ROk (SEos 1), None)].
Proof. vm_compute. reflexivity. Qed.

(* /repo/src/http1/test/chunked/extension_value.rs:41-53 *)
Example chunked_extension_value_allowed :
  map (fun b => fst (play debug new []
     [Do init_chunked;
      At (bs "F;Extension=");
      At ([b])])) (token_vec) =
  map (fun b =>
    [(ROk (SEos 12), Some StStripChunkExtensionValue);
      (ROk (SEos 1), Some StChunkExtensionValue)]) (token_vec).
Proof. vm_compute. reflexivity. Qed.

(* /repo/src/http1/test/chunked/extension_value.rs:56-77 *)
Example chunked_extension_value_allowed_escaped :
  map (fun b => fst (play debug new []
     [Do init_chunked;
      At (bs "F;Extension=");
      At (bs "escaped ""\");
      At ([b])])) (filter (fun x => (31 <? x) && (x <? 123)) (range 0 255)) =
  map (fun b =>
    [(ROk (SEos 12), Some StStripChunkExtensionValue);
      (ROk (SEos 10), Some StChunkExtensionEscapedValue);
      (ROk (SEos 1), Some StChunkExtensionQuotedValue)]) (filter (fun x => (31 <? x) && (x <? 123)) (range 0 255)).
Proof. vm_compute. reflexivity. Qed.

(* /repo/src/http1/test/chunked/extension_value.rs:80-109 *)
Example chunked_extension_value_allowed_header_fields :
  map (fun b => let '(seen, log) := play debug new []
     [Do init_chunked;
      At (bs "F;Extension=");
      At ([b]);
      At ([13])] in
   (seen, text KChunkExtValue log)) (filter (fun x => negb (x =? 32)) (filter (fun x => negb (x =? 59)) (filter (fun x => negb (x =? 9)) (header_field_vec)))) =
  map (fun b =>
    ([(ROk (SEos 12), Some StStripChunkExtensionValue);
      (ROk (SEos 1), Some StChunkExtensionValue);
      (ROk (SEos 1), Some StChunkLengthLf)], [b])) (filter (fun x => negb (x =? 32)) (filter (fun x => negb (x =? 59)) (filter (fun x => negb (x =? 9)) (header_field_vec)))).
Proof. vm_compute. reflexivity. Qed.

(* /repo/src/http1/test/chunked/extension_value.rs:112-148 *)
Example chunked_extension_value_allowed_quoted_header_fields :
  map (fun b => let '(seen, log) := play debug new []
     [Do init_chunked;
      At (bs "F;Extension=");
      At (bs """");
      At ([b]);
      At (bs """")] in
   (seen, text KChunkExtValue log)) (filter (fun x => negb (x =? 92)) (filter (fun x => negb (x =? 34)) (quoted_header_field_vec))) =
  map (fun b =>
    ([(ROk (SEos 12), Some StStripChunkExtensionValue);
      (ROk (SEos 1), Some StChunkExtensionQuotedValue);
      (ROk (SEos 1), Some StChunkExtensionQuotedValue);
      (ROk (SEos 1), Some StChunkExtensionValue)], [b])) (filter (fun x => negb (x =? 92)) (filter (fun x => negb (x =? 34)) (quoted_header_field_vec))).
Proof. vm_compute. reflexivity. Qed.

(* /repo/src/http1/test/chunked/extension_value.rs:151-179 *)
Example chunked_extension_value_entire_iter :
  (let '(seen, log) := play debug new []
     [Do init_chunked;
      At (bs "F;Extension=");
      By [34];
      By [118];
      By [97];
      By [92];
      By [108];
      By [117];
      By [101];
      By [49];
      By [34];
      By [118];
      By [97];
      By [108];
      By [117];
      By [101];
      By [50];
      By [13]] in
   (seen, text KChunkExtValue log)) =
    ([(ROk (SEos 12), Some StStripChunkExtensionValue);
      (ROk (SEos 1), None);
      (ROk (SEos 1), None);
      (ROk (SEos 1), None);
      (ROk (SEos 1), None);
      (ROk (SEos 1), None);
      (ROk (SEos 1), None);
      (ROk (SEos 1), None);
      (ROk (SEos 1), None);
      (ROk (SEos 1), None);
      (ROk (SEos 1), None);
      (ROk (SEos 1), None);
      (ROk (SEos 1), None);
      (ROk (SEos 1), None);
      (ROk (SEos 1), None);
      (ROk (SEos 1), None);
      (ROk (SEos 1), None)], bs "value1value2").
Proof. vm_compute. reflexivity. Qed.

(* /repo/src/http1/test/chunked/extension_value.rs:182-197 *)
Example chunked_extension_value_not_allowed_header_fields_error :
  map (fun b => fst (play debug new []
     [Do init_chunked;
      At (bs "F;Extension=");
      At ([b])])) (filter (fun x => negb (x =? 34)) (filter (fun x => negb (x =? 59)) (filter (fun x => negb (x =? 13)) (filter (fun x => negb (yes_of (is_header_field x))) (range 0 255))))) =
  map (fun b =>
    [(ROk (SEos 12), Some StStripChunkExtensionValue);
      (RErr (ErChunkExtensionValue (b)), Some StDead)]) (filter (fun x => negb (x =? 34)) (filter (fun x => negb (x =? 59)) (filter (fun x => negb (x =? 13)) (filter (fun x => negb (yes_of (is_header_field x))) (range 0 255))))).
Proof. vm_compute. reflexivity. Qed.

(* /repo/src/http1/test/chunked/extension_value.rs:200-222 *)
Example chunked_extension_value_not_allowed_quoted_header_fields_error :
  map (fun b => fst (play debug new []
     [Do init_chunked;
      At (bs "F;Extension=");
      At (bs """");
      At ([b])])) (filter (fun x => negb (x =? 92)) (filter (fun x => negb (x =? 34)) (filter (fun x => negb (yes_of (is_quoted_header_field x))) (range 0 255)))) =
  map (fun b =>
    [(ROk (SEos 12), Some StStripChunkExtensionValue);
      (ROk (SEos 1), Some StChunkExtensionQuotedValue);
      (RErr (ErChunkExtensionValue (b)), Some StDead)]) (filter (fun x => negb (x =? 92)) (filter (fun x => negb (x =? 34)) (filter (fun x => negb (yes_of (is_quoted_header_field x))) (range 0 255)))).
Proof. vm_compute. reflexivity. Qed.

(* /repo/src/http1/test/chunked/extension_value.rs:225-234 *)
Example chunked_extension_value_state_strip_chunk_extension_name :
  fst (play debug new []
     [Do init_chunked;
      At (bs "F;Extension=");
      By [86];
      By [59]]) =
    [(ROk (SEos 12), Some StStripChunkExtensionValue);
      (ROk (SEos 1), None);
      (ROk (SEos 1), None)].
Proof. vm_compute. reflexivity. Qed.

(* /repo/src/http1/test/chunked/extension_value.rs:237-247 *)
Example chunked_extension_value_state_chunk_extension_escaped_value :
  fst (play debug new []
     [Do init_chunked;
      At (bs "F;Extension=");
      By [86];
      By [34];
      By [92]]) =
    [(ROk (SEos 12), Some StStripChunkExtensionValue);
      (ROk (SEos 1), None);
      (ROk (SEos 1), None);
      (ROk (SEos 1), None)].
Proof. vm_compute. reflexivity. Qed.

(* /repo/src/http1/test/chunked/extension_value.rs:250-259 *)
Example chunked_extension_value_state_chunk_extension_quoted_value :
  fst (play debug new []
     [Do init_chunked;
      At (bs "F;Extension=");
      By [86];
      By [34]]) =
    [(ROk (SEos 12), Some StStripChunkExtensionValue);
      (ROk (SEos 1), None);
      (ROk (SEos 1), None)].
Proof. vm_compute. reflexivity. Qed.

(* /repo/src/http1/test/chunked/extension_value.rs:262-273 *)
Example chunked_extension_value_state_chunk_extension_value :
  fst (play debug new []
     [Do init_chunked;
      At (bs "F;Extension=");
      By [86];
      By [34];
      By [86];
      By [34]]) =
    [(ROk (SEos 12), Some StStripChunkExtensionValue);
      (ROk (SEos 1), None);
      (ROk (SEos 1), None);
      (ROk (SEos 1), None);
      (ROk (SEos 1), None)].
Proof. vm_compute. reflexivity. Qed.

(* /repo/src/http1/test/chunked/finished.rs:21-48 *)
Example chunked_finished_finished :
  (let '(seen, log) := play debug new []
     [Do init_chunked;
      At (bs "0" ++ [13; 10] ++ bs "Trailer1: value1; value2" ++ [13; 10] ++ bs "Trailer2: complex=""value""" ++ [13; 10; 13; 10])] in
   (seen, text KHeaderName log, text KHeaderValue log)) =
    ([(ROk (SFinished 58), Some StFinished)], bs "trailer1trailer2", bs "value1; value2complex=""value""").
Proof. vm_compute. reflexivity. Qed.

(* /repo/src/http1/test/chunked/length.rs:31-46 *)
Example chunked_length_allowed1 :
  (let '(seen, log) := play debug new []
     [Do init_chunked;
      At (bs "F" ++ [13])] in
   (seen, chunk_length log)) =
    ([(ROk (SEos 2), Some StChunkLengthLf)], 15).
Proof. vm_compute. reflexivity. Qed.

(* /repo/src/http1/test/chunked/length.rs:49-64 *)
Example chunked_length_allowed2 :
  (let '(seen, log) := play debug new []
     [Do init_chunked;
      At (bs "FF" ++ [13])] in
   (seen, chunk_length log)) =
    ([(ROk (SEos 3), Some StChunkLengthLf)], 255).
Proof. vm_compute. reflexivity. Qed.

(* /repo/src/http1/test/chunked/length.rs:67-82 *)
Example chunked_length_allowed3 :
  (let '(seen, log) := play debug new []
     [Do init_chunked;
      At (bs "FFF" ++ [13])] in
   (seen, chunk_length log)) =
    ([(ROk (SEos 4), Some StChunkLengthLf)], 4095).
Proof. vm_compute. reflexivity. Qed.

(* /repo/src/http1/test/chunked/length.rs:85-100 *)
Example chunked_length_allowed4 :
  (let '(seen, log) := play debug new []
     [Do init_chunked;
      At (bs "FFFF" ++ [13])] in
   (seen, chunk_length log)) =
    ([(ROk (SEos 5), Some StChunkLengthLf)], 65535).
Proof. vm_compute. reflexivity. Qed.

(* /repo/src/http1/test/chunked/length.rs:103-118 *)
Example chunked_length_allowed5 :
  (let '(seen, log) := play debug new []
     [Do init_chunked;
      At (bs "FFFFF" ++ [13])] in
   (seen, chunk_length log)) =
    ([(ROk (SEos 6), Some StChunkLengthLf)], 1048575).
Proof. vm_compute. reflexivity. Qed.

(* /repo/src/http1/test/chunked/length.rs:121-136 *)
Example chunked_length_allowed6 :
  (let '(seen, log) := play debug new []
     [Do init_chunked;
      At (bs "FFFFFF" ++ [13])] in
   (seen, chunk_length log)) =
    ([(ROk (SEos 7), Some StChunkLengthLf)], 16777215).
Proof. vm_compute. reflexivity. Qed.

(* /repo/src/http1/test/chunked/length.rs:139-154 *)
Example chunked_length_allowed7 :
  (let '(seen, log) := play debug new []
     [Do init_chunked;
      At (bs "FFFFFFF" ++ [13])] in
   (seen, chunk_length log)) =
    ([(ROk (SEos 8), Some StChunkLengthLf)], 268435455).
Proof. vm_compute. reflexivity. Qed.

(* /repo/src/http1/test/chunked/length.rs:157-172 *)
Example chunked_length_allowed8 :
  (let '(seen, log) := play debug new []
     [Do init_chunked;
      At (bs "FFFFFFFF" ++ [13])] in
   (seen, chunk_length log)) =
    ([(ROk (SEos 9), Some StChunkLengthLf)], 4294967295).
Proof. vm_compute. reflexivity. Qed.

(* /repo/src/http1/test/chunked/length.rs:175-196 *)
Example chunked_length_entire_iter :
  (let '(seen, log) := play debug new []
     [Do init_chunked;
      By [70];
      By [70];
      By [70];
      By [70];
      By [70];
      By [70];
      By [70];
      By [70];
      By [13]] in
   (seen, chunk_length log)) =
    ([(ROk (SEos 1), None);
      (ROk (SEos 1), None);
      (ROk (SEos 1), None);
      (ROk (SEos 1), None);
      (ROk (SEos 1), None);
      (ROk (SEos 1), None);
      (ROk (SEos 1), None);
      (ROk (SEos 1), None);
      (ROk (SEos 1), None)], 4294967295).
Proof. vm_compute. reflexivity. Qed.

(* /repo/src/http1/test/chunked/length.rs:199-210 *)
Example chunked_length_not_allowed_hex_error1 :
  map (fun b => fst (play debug new []
     [Do init_chunked;
      At ([b])])) (filter (fun x => negb (is_hex x)) (range 0 255)) =
  map (fun b =>
    [(RErr (ErChunkLength (b)), Some StDead)]) (filter (fun x => negb (is_hex x)) (range 0 255)).
Proof. vm_compute. reflexivity. Qed.

(* /repo/src/http1/test/chunked/length.rs:213-235 *)
Example chunked_length_not_allowed_hex_error2 :
  map (fun b => fst (play debug new []
     [Do init_chunked;
      At (bs "F");
      At ([b])])) (filter (fun x => negb (x =? 59)) (filter (fun x => negb (x =? 13)) (filter (fun x => negb (is_hex x)) (range 0 255)))) =
  map (fun b =>
    [(ROk (SEos 1), Some StChunkLength2);
      (RErr (ErChunkLength (b)), Some StDead)]) (filter (fun x => negb (x =? 59)) (filter (fun x => negb (x =? 13)) (filter (fun x => negb (is_hex x)) (range 0 255)))).
Proof. vm_compute. reflexivity. Qed.

(* /repo/src/http1/test/chunked/length.rs:238-260 *)
Example chunked_length_not_allowed_hex_error3 :
  map (fun b => fst (play debug new []
     [Do init_chunked;
      At (bs "FF");
      At ([b])])) (filter (fun x => negb (x =? 59)) (filter (fun x => negb (x =? 13)) (filter (fun x => negb (is_hex x)) (range 0 255)))) =
  map (fun b =>
    [(ROk (SEos 2), Some StChunkLength3);
      (RErr (ErChunkLength (b)), Some StDead)]) (filter (fun x => negb (x =? 59)) (filter (fun x => negb (x =? 13)) (filter (fun x => negb (is_hex x)) (range 0 255)))).
Proof. vm_compute. reflexivity. Qed.

(* /repo/src/http1/test/chunked/length.rs:263-285 *)
Example chunked_length_not_allowed_hex_error4 :
  map (fun b => fst (play debug new []
     [Do init_chunked;
      At (bs "FFF");
      At ([b])])) (filter (fun x => negb (x =? 59)) (filter (fun x => negb (x =? 13)) (filter (fun x => negb (is_hex x)) (range 0 255)))) =
  map (fun b =>
    [(ROk (SEos 3), Some StChunkLength4);
      (RErr (ErChunkLength (b)), Some StDead)]) (filter (fun x => negb (x =? 59)) (filter (fun x => negb (x =? 13)) (filter (fun x => negb (is_hex x)) (range 0 255)))).
Proof. vm_compute. reflexivity. Qed.

(* /repo/src/http1/test/chunked/length.rs:288-310 *)
Example chunked_length_not_allowed_hex_error5 :
  map (fun b => fst (play debug new []
     [Do init_chunked;
      At (bs "FFFF");
      At ([b])])) (filter (fun x => negb (x =? 59)) (filter (fun x => negb (x =? 13)) (filter (fun x => negb (is_hex x)) (range 0 255)))) =
  map (fun b =>
    [(ROk (SEos 4), Some StChunkLength5);
      (RErr (ErChunkLength (b)), Some StDead)]) (filter (fun x => negb (x =? 59)) (filter (fun x => negb (x =? 13)) (filter (fun x => negb (is_hex x)) (range 0 255)))).
Proof. vm_compute. reflexivity. Qed.

(* /repo/src/http1/test/chunked/length.rs:313-335 *)
Example chunked_length_not_allowed_hex_error6 :
  map (fun b => fst (play debug new []
     [Do init_chunked;
      At (bs "FFFFF");
      At ([b])])) (filter (fun x => negb (x =? 59)) (filter (fun x => negb (x =? 13)) (filter (fun x => negb (is_hex x)) (range 0 255)))) =
  map (fun b =>
    [(ROk (SEos 5), Some StChunkLength6);
      (RErr (ErChunkLength (b)), Some StDead)]) (filter (fun x => negb (x =? 59)) (filter (fun x => negb (x =? 13)) (filter (fun x => negb (is_hex x)) (range 0 255)))).
Proof. vm_compute. reflexivity. Qed.

(* /repo/src/http1/test/chunked/length.rs:338-360 *)
Example chunked_length_not_allowed_hex_error7 :
  map (fun b => fst (play debug new []
     [Do init_chunked;
      At (bs "FFFFFF");
      At ([b])])) (filter (fun x => negb (x =? 59)) (filter (fun x => negb (x =? 13)) (filter (fun x => negb (is_hex x)) (range 0 255)))) =
  map (fun b =>
    [(ROk (SEos 6), Some StChunkLength7);
      (RErr (ErChunkLength (b)), Some StDead)]) (filter (fun x => negb (x =? 59)) (filter (fun x => negb (x =? 13)) (filter (fun x => negb (is_hex x)) (range 0 255)))).
Proof. vm_compute. reflexivity. Qed.

(* /repo/src/http1/test/chunked/length.rs:363-385 *)
Example chunked_length_not_allowed_hex_error8 :
  map (fun b => fst (play debug new []
     [Do init_chunked;
      At (bs "FFFFFFF");
      At ([b])])) (filter (fun x => negb (x =? 59)) (filter (fun x => negb (x =? 13)) (filter (fun x => negb (is_hex x)) (range 0 255)))) =
  map (fun b =>
    [(ROk (SEos 7), Some StChunkLength8);
      (RErr (ErChunkLength (b)), Some StDead)]) (filter (fun x => negb (x =? 59)) (filter (fun x => negb (x =? 13)) (filter (fun x => negb (is_hex x)) (range 0 255)))).
Proof. vm_compute. reflexivity. Qed.

(* /repo/src/http1/test/chunked/length.rs:388-397 *)
Example chunked_length_overflow_error :
  fst (play debug new []
     [Do init_chunked;
      At (bs "FFFFFFFFF")]) =
    [(RErr (ErChunkLength (70)), Some StDead)].
Proof. vm_compute. reflexivity. Qed.

(* /repo/src/http1/test/chunked/length.rs:400-410 *)
Example chunked_length_state_chunk_data :
  fst (play debug new []
     [Do init_chunked;
      By [70];
      By [13];
      By [10]]) =
    [(ROk (SEos 1), None);
      (ROk (SEos 1), None);
      (ROk (SEos 1), None)].
Proof. vm_compute. reflexivity. Qed.

(* /repo/src/http1/test/chunked/length.rs:413-422 *)
Example chunked_length_state_extension_name :
  fst (play debug new []
     [Do init_chunked;
      By [70];
      By [59]]) =
    [(ROk (SEos 1), None);
      (ROk (SEos 1), None)].
Proof. vm_compute. reflexivity. Qed.

(* /repo/src/http1/test/head/callback.rs:21-41 *)
Example head_callback_on_header_name :
  fst (play (refuses (fun e => match e with EData KHeaderName _ => true | _ => false end)) new []
     [At (bs "X / HTTP/1.1" ++ [13; 10] ++ bs "H")]) =
    [(ROk (SCallback 15), Some StLowerHeaderName)].
Proof. vm_compute. reflexivity. Qed.

(* /repo/src/http1/test/head/callback.rs:44-64 *)
Example head_callback_on_header_value :
  fst (play (refuses (fun e => match e with EData KHeaderValue _ => true | _ => false end)) new []
     [At (bs "X / HTTP/1.1" ++ [13; 10] ++ bs "H: v")]) =
    [(ROk (SCallback 18), Some StHeaderValue)].
Proof. vm_compute. reflexivity. Qed.

(* /repo/src/http1/test/head/header_name.rs:38-63 *)
Example head_header_name_allowed_alpha_lowercase :
  map (fun b => let '(seen, log) := play debug new []
     [At (bs "GET / HTTP/1.1" ++ [13; 10]);
      At ([b]);
      At (bs ":")] in
   (seen, text KHeaderName log)) (alpha_lower_vec) =
  map (fun b =>
    ([(ROk (SEos 16), Some StHeaderCr2);
      (ROk (SEos 1), Some StLowerHeaderName);
      (ROk (SEos 1), Some StStripHeaderValue)], [b])) (alpha_lower_vec).
Proof. vm_compute. reflexivity. Qed.

(* /repo/src/http1/test/head/header_name.rs:66-92 *)
Example head_header_name_allowed_alpha_uppercase :
  map (fun b => let '(seen, log) := play debug new []
     [At (bs "GET / HTTP/1.1" ++ [13; 10]);
      At ([b]);
      At (bs ":")] in
   (seen, text KHeaderName log)) (alpha_upper_vec) =
  map (fun b =>
    ([(ROk (SEos 16), Some StHeaderCr2);
      (ROk (SEos 1), Some StLowerHeaderName);
      (ROk (SEos 1), Some StStripHeaderValue)], [b + 32])) (alpha_upper_vec).
Proof. vm_compute. reflexivity. Qed.

(* /repo/src/http1/test/head/header_name.rs:95-120 *)
Example head_header_name_allowed_tokens_without_alpha :
  map (fun b => let '(seen, log) := play debug new []
     [At (bs "GET / HTTP/1.1" ++ [13; 10]);
      At ([b]);
      At (bs ":")] in
   (seen, text KHeaderName log)) (filter (fun x => negb (is_alpha x)) (token_vec)) =
  map (fun b =>
    ([(ROk (SEos 16), Some StHeaderCr2);
      (ROk (SEos 1), Some StLowerHeaderName);
      (ROk (SEos 1), Some StStripHeaderValue)], [b])) (filter (fun x => negb (is_alpha x)) (token_vec)).
Proof. vm_compute. reflexivity. Qed.

(* /repo/src/http1/test/head/header_name.rs:123-142 *)
Example head_header_name_entire_iter :
  (let '(seen, log) := play debug new []
     [At (bs "GET / HTTP/1.1" ++ [13; 10]);
      By [72];
      By [101];
      By [97];
      By [100];
      By [101];
      By [114];
      By [58]] in
   (seen, text KHeaderName log)) =
    ([(ROk (SEos 16), Some StHeaderCr2);
      (ROk (SEos 1), None);
      (ROk (SEos 1), None);
      (ROk (SEos 1), None);
      (ROk (SEos 1), None);
      (ROk (SEos 1), None);
      (ROk (SEos 1), None);
      (ROk (SEos 1), None)], bs "header").
Proof. vm_compute. reflexivity. Qed.

(* /repo/src/http1/test/head/header_name.rs:145-165 *)
Example head_header_name_not_allowed_error :
  map (fun b => fst (play debug new []
     [At (bs "GET / HTTP/1.1" ++ [13; 10]);
      At (bs "X");
      At ([b])])) (filter (fun x => negb (x =? 58)) (non_token_vec)) =
  map (fun b =>
    [(ROk (SEos 16), Some StHeaderCr2);
      (ROk (SEos 1), Some StLowerHeaderName);
      (RErr (ErHeaderName (b)), Some StDead)]) (filter (fun x => negb (x =? 58)) (non_token_vec)).
Proof. vm_compute. reflexivity. Qed.

(* /repo/src/http1/test/head/header_name.rs:168-177 *)
Example head_header_name_state_strip_header_value :
  fst (play debug new []
     [At (bs "GET / HTTP/1.1" ++ [13; 10]);
      By [72];
      By [58]]) =
    [(ROk (SEos 16), Some StHeaderCr2);
      (ROk (SEos 1), None);
      (ROk (SEos 1), None)].
Proof. vm_compute. reflexivity. Qed.

(* /repo/src/http1/test/head/header_value.rs:41-62 *)
Example head_header_value_allowed_escaped :
  map (fun b => fst (play debug new []
     [At (bs "GET / HTTP/1.1" ++ [13; 10] ++ bs "Header:");
      At (bs "escaped ""\");
      At ([b])])) (filter (fun x => (31 <? x) && (x <? 123)) (range 0 255)) =
  map (fun b =>
    [(ROk (SEos 23), Some StStripHeaderValue);
      (ROk (SEos 10), Some StHeaderEscapedValue);
      (ROk (SEos 1), Some StHeaderQuotedValue)]) (filter (fun x => (31 <? x) && (x <? 123)) (range 0 255)).
Proof. vm_compute. reflexivity. Qed.

(* /repo/src/http1/test/head/header_value.rs:65-93 *)
Example head_header_value_allowed_header_fields :
  map (fun b => let '(seen, log) := play debug new []
     [At (bs "GET / HTTP/1.1" ++ [13; 10] ++ bs "Header:");
      At ([b]);
      At ([13])] in
   (seen, nth 0 (text KHeaderValue log) 999)) (filter (fun x => negb (x =? 9)) (filter (fun x => negb (x =? 32)) (header_field_vec))) =
  map (fun b =>
    ([(ROk (SEos 23), Some StStripHeaderValue);
      (ROk (SEos 1), Some StHeaderValue);
      (ROk (SEos 1), Some StHeaderLf1)], b)) (filter (fun x => negb (x =? 9)) (filter (fun x => negb (x =? 32)) (header_field_vec))).
Proof. vm_compute. reflexivity. Qed.

(* /repo/src/http1/test/head/header_value.rs:96-147 *)
Example head_header_value_allowed_quoted_header_fields :
  map (fun b => let '(seen, log) := play debug new []
     [At (bs "GET / HTTP/1.1" ++ [13; 10] ++ bs "Header:");
      At (bs """");
      At ([b]);
      At (bs """")] in
   (seen, N.of_nat (List.length (text KHeaderValue log)), nth 0 (text KHeaderValue log) 999, nth 1 (text KHeaderValue log) 999, nth 2 (text KHeaderValue log) 999)) (filter (fun x => negb (x =? 92)) (filter (fun x => negb (x =? 34)) (quoted_header_field_vec))) =
  map (fun b =>
    ([(ROk (SEos 23), Some StStripHeaderValue);
      (ROk (SEos 1), Some StHeaderQuotedValue);
      (ROk (SEos 1), Some StHeaderQuotedValue);
      (ROk (SEos 1), Some StHeaderValue)], 3, 34, b, 34)) (filter (fun x => negb (x =? 92)) (filter (fun x => negb (x =? 34)) (quoted_header_field_vec))).
Proof. vm_compute. reflexivity. Qed.

(* /repo/src/http1/test/head/header_value.rs:150-178 *)
Example head_header_value_entire_iter :
  (let '(seen, log) := play debug new []
     [At (bs "GET / HTTP/1.1" ++ [13; 10] ++ bs "Header:");
      By [34];
      By [118];
      By [97];
      By [92];
      By [108];
      By [117];
      By [101];
      By [49];
      By [34];
      By [118];
      By [97];
      By [108];
      By [117];
      By [101];
      By [50];
      By [13]] in
   (seen, text KHeaderValue log)) =
    ([(ROk (SEos 23), Some StStripHeaderValue);
      (ROk (SEos 1), None);
      (ROk (SEos 1), None);
      (ROk (SEos 1), None);
      (ROk (SEos 1), None);
      (ROk (SEos 1), None);
      (ROk (SEos 1), None);
      (ROk (SEos 1), None);
      (ROk (SEos 1), None);
      (ROk (SEos 1), None);
      (ROk (SEos 1), None);
      (ROk (SEos 1), None);
      (ROk (SEos 1), None);
      (ROk (SEos 1), None);
      (ROk (SEos 1), None);
      (ROk (SEos 1), None);
      (ROk (SEos 1), None)], bs """va\lue1""value2").
Proof. vm_compute. reflexivity. Qed.

(* /repo/src/http1/test/head/header_value.rs:181-212 *)
Example head_header_value_multiline :
  (let '(seen, log) := play debug new []
     [At (bs "GET / HTTP/1.1" ++ [13; 10] ++ bs "Header:");
      At (bs "Part1" ++ [13; 10]);
      At (bs " Part2" ++ [13; 10]);
      At (bs " Part3" ++ [13; 10])] in
   (seen, text KHeaderValue log)) =
    ([(ROk (SEos 23), Some StStripHeaderValue);
      (ROk (SEos 7), Some StHeaderCr2);
      (ROk (SEos 8), Some StHeaderCr2);
      (ROk (SEos 8), Some StHeaderCr2)], bs "Part1Part2Part3").
Proof. vm_compute. reflexivity. Qed.

(* /repo/src/http1/test/head/header_value.rs:215-235 *)
Example head_header_value_not_allowed_escaped_error :
  map (fun b => fst (play debug new []
     [At (bs "GET / HTTP/1.1" ++ [13; 10] ++ bs "Header:");
      At (bs "escaped ""\");
      At ([b])])) (filter (fun x => (x <? 32) || (122 <? x)) (range 0 255)) =
  map (fun b =>
    [(ROk (SEos 23), Some StStripHeaderValue);
      (ROk (SEos 10), Some StHeaderEscapedValue);
      (RErr (ErHeaderValue (b)), Some StDead)]) (filter (fun x => (x <? 32) || (122 <? x)) (range 0 255)).
Proof. vm_compute. reflexivity. Qed.

(* /repo/src/http1/test/head/header_value.rs:238-252 *)
Example head_header_value_not_allowed_header_fields_error :
  map (fun b => fst (play debug new []
     [At (bs "GET / HTTP/1.1" ++ [13; 10] ++ bs "Header:");
      At ([b])])) (filter (fun x => negb (x =? 34)) (filter (fun x => negb (x =? 13)) (filter (fun x => negb (yes_of (is_header_field x))) (range 0 255)))) =
  map (fun b =>
    [(ROk (SEos 23), Some StStripHeaderValue);
      (RErr (ErHeaderValue (b)), Some StDead)]) (filter (fun x => negb (x =? 34)) (filter (fun x => negb (x =? 13)) (filter (fun x => negb (yes_of (is_header_field x))) (range 0 255)))).
Proof. vm_compute. reflexivity. Qed.

(* /repo/src/http1/test/head/header_value.rs:255-277 *)
Example head_header_value_not_allowed_quoted_header_fields_error :
  map (fun b => fst (play debug new []
     [At (bs "GET / HTTP/1.1" ++ [13; 10] ++ bs "Header:");
      At (bs """");
      At ([b])])) (filter (fun x => negb (x =? 92)) (filter (fun x => negb (x =? 34)) (filter (fun x => negb (yes_of (is_quoted_header_field x))) (range 0 255)))) =
  map (fun b =>
    [(ROk (SEos 23), Some StStripHeaderValue);
      (ROk (SEos 1), Some StHeaderQuotedValue);
      (RErr (ErHeaderValue (b)), Some StDead)]) (filter (fun x => negb (x =? 92)) (filter (fun x => negb (x =? 34)) (filter (fun x => negb (yes_of (is_quoted_header_field x))) (range 0 255)))).
Proof. vm_compute. reflexivity. Qed.

(* /repo/src/http1/test/head/header_value.rs:280-298 *)
Example head_header_value_state_finished :
  fst (play debug new []
     [At (bs "GET / HTTP/1.1" ++ [13; 10] ++ bs "Header:");
      By [86];
      By [13];
      By [10];
      By [13];
      At ([10])]) =
    [(ROk (SEos 23), Some StStripHeaderValue);
      (ROk (SEos 1), None);
      (ROk (SEos 1), None);
      (ROk (SEos 1), None);
      (ROk (SEos 1), None);
      (ROk (SFinished 1), Some StFinished)].
Proof. vm_compute. reflexivity. Qed.

(* /repo/src/http1/test/multipart/callback.rs:21-42 *)
Example multipart_callback_on_multipart_begin :
  fst (play (refuses (fun e => match e with EMultipartBegin => true | _ => false end)) new []
     [Do init_multipart;
      Do (fun p => set_boundary p (bs "XTestBoundaryX"));
      At (bs "--XTestBoundaryX" ++ [13])]) =
    [(ROk (SCallback 17), Some StInitialLf)].
Proof. vm_compute. reflexivity. Qed.

(* /repo/src/http1/test/multipart/callback.rs:45-72 *)
Example multipart_callback_on_multipart_data :
  fst (play (refuses (fun e => match e with EData KMultipartData _ => true | _ => false end)) new []
     [Do init_multipart;
      Do (fun p => set_boundary p (bs "XTestBoundaryX"));
      At (bs "--XTestBoundaryX" ++ [13; 10] ++ bs "Header: Value" ++ [13; 10; 13; 10] ++ bs "Data")]) =
    [(ROk (SCallback 39), Some StMultipartDataByByte)].
Proof. vm_compute. reflexivity. Qed.

(* /repo/src/http1/test/multipart/finished.rs:21-39 *)
Example multipart_finished_finished :
  fst (play debug new []
     [Do init_multipart;
      Do (fun p => set_boundary p (bs "XTestBoundaryX"));
      At (bs "--XTestBoundaryX" ++ [13; 10; 13; 10] ++ bs "This is the data." ++ [13; 10] ++ bs "--XTestBoundaryX--")]) =
    [(ROk (SFinished 57), Some StFinished)].
Proof. vm_compute. reflexivity. Qed.

(* /repo/src/http1/test/multipart/headers.rs:21-48 *)
Example multipart_headers_headers :
  (let '(seen, log) := play debug new []
     [Do init_multipart;
      Do (fun p => set_boundary p (bs "XTestBoundaryX"));
      At (bs "--XTestBoundaryX" ++ [13; 10] ++ bs "Header1: Value1" ++ [13; 10] ++ bs "Header2: Value2" ++ [13; 10])] in
   (seen, text KHeaderName log, text KHeaderValue log)) =
    ([(ROk (SEos 52), Some StHeaderCr2)], bs "header1header2", bs "Value1Value2").
Proof. vm_compute. reflexivity. Qed.

(* /repo/src/http1/test/request/callback.rs:21-39 *)
Example request_callback_on_method :
  fst (play (refuses (fun e => match e with EData KMethod _ => true | _ => false end)) new []
     [At (bs "X")]) =
    [(ROk (SCallback 1), Some StRequestMethod)].
Proof. vm_compute. reflexivity. Qed.

(* /repo/src/http1/test/request/callback.rs:42-60 *)
Example request_callback_on_url :
  fst (play (refuses (fun e => match e with EData KUrl _ => true | _ => false end)) new []
     [At (bs "X /")]) =
    [(ROk (SCallback 3), Some StRequestUrl2)].
Proof. vm_compute. reflexivity. Qed.

(* /repo/src/http1/test/request/callback.rs:63-81 *)
Example request_callback_on_version :
  fst (play (refuses (fun e => match e with EVersion _ _ => true | _ => false end)) new []
     [At (bs "X / HTTP/1.1" ++ [13])]) =
    [(ROk (SCallback 13), Some StInitialEnd)].
Proof. vm_compute. reflexivity. Qed.

(* /repo/src/http1/test/request/method.rs:28-54 *)
Example request_method_allowed :
  map (fun b => let '(seen, log) := play debug new []
     [At ([b]);
      At (bs " ")] in
   (seen, text KMethod log)) (filter (fun x => negb (x =? 72)) (alpha_upper_vec)) =
  map (fun b =>
    ([(ROk (SEos 1), Some StRequestMethod);
      (ROk (SEos 1), Some StRequestUrl1)], [b])) (filter (fun x => negb (x =? 72)) (alpha_upper_vec)).
Proof. vm_compute. reflexivity. Qed.

(* /repo/src/http1/test/request/method.rs:57-75 *)
Example request_method_callback_exit :
  fst (play (refuses (fun e => match e with EData KMethod _ => true | _ => false end)) new []
     [At (bs "X")]) =
    [(ROk (SCallback 1), Some StRequestMethod)].
Proof. vm_compute. reflexivity. Qed.

(* /repo/src/http1/test/request/method.rs:78-97 *)
Example request_method_entire_iter :
  (let '(seen, log) := play debug new []
     [By [77];
      By [69];
      By [84];
      By [72];
      By [79];
      By [68];
      By [32]] in
   (seen, text KMethod log)) =
    ([(ROk (SEos 1), None);
      (ROk (SEos 1), None);
      (ROk (SEos 1), None);
      (ROk (SEos 1), None);
      (ROk (SEos 1), None);
      (ROk (SEos 1), None);
      (ROk (SEos 1), None)], bs "METHOD").
Proof. vm_compute. reflexivity. Qed.

(* /repo/src/http1/test/request/method.rs:100-112 *)
Example request_method_not_allowed_error :
  map (fun b => fst (play debug new []
     [At ([b])])) ((range 0 65 ++ range 91 255)) =
  map (fun b =>
    [(RErr (ErMethod (b)), Some StDead)]) ((range 0 65 ++ range 91 255)).
Proof. vm_compute. reflexivity. Qed.

(* /repo/src/http1/test/request/method.rs:115-124 *)
Example request_method_state_request_url :
  fst (play debug new []
     [By [77];
      By [32]]) =
    [(ROk (SEos 1), None);
      (ROk (SEos 1), None)].
Proof. vm_compute. reflexivity. Qed.

(* /repo/src/http1/test/request/url.rs:39-51 *)
Example request_url_allowed :
  map (fun b => fst (play debug new []
     [At (bs "GET ");
      At ([b])])) (visible_7bit_vec) =
  map (fun b =>
    [(ROk (SEos 4), Some StRequestUrl1);
      (ROk (SEos 1), Some StRequestUrl2)]) (visible_7bit_vec).
Proof. vm_compute. reflexivity. Qed.

(* /repo/src/http1/test/request/url.rs:54-72 *)
Example request_url_entire_iter :
  (let '(seen, log) := play debug new []
     [At (bs "GET ");
      By [47];
      By [112];
      By [97];
      By [116];
      By [104];
      By [32]] in
   (seen, text KUrl log)) =
    ([(ROk (SEos 4), Some StRequestUrl1);
      (ROk (SEos 1), None);
      (ROk (SEos 1), None);
      (ROk (SEos 1), None);
      (ROk (SEos 1), None);
      (ROk (SEos 1), None);
      (ROk (SEos 1), None)], bs "/path").
Proof. vm_compute. reflexivity. Qed.

(* /repo/src/http1/test/request/url.rs:75-89 *)
Example request_url_not_allowed_error :
  map (fun b => fst (play debug new []
     [At (bs "GET ");
      At ([b])])) (filter (fun x => negb (x =? 32)) (filter (fun x => negb (x =? 9)) (non_visible_7bit_vec))) =
  map (fun b =>
    [(ROk (SEos 4), Some StRequestUrl1);
      (RErr (ErUrl (b)), Some StDead)]) (filter (fun x => negb (x =? 32)) (filter (fun x => negb (x =? 9)) (non_visible_7bit_vec))).
Proof. vm_compute. reflexivity. Qed.

(* /repo/src/http1/test/request/url.rs:92-101 *)
Example request_url_state_request_http1 :
  fst (play debug new []
     [At (bs "GET ");
      By [47];
      By [32]]) =
    [(ROk (SEos 4), Some StRequestUrl1);
      (ROk (SEos 1), None);
      (ROk (SEos 1), None)].
Proof. vm_compute. reflexivity. Qed.

(* /repo/src/http1/test/request/version.rs:39-85 *)
Example request_version_allowed1 :
  map (fun b => let '(seen, log) := play debug new []
     [At (bs "GET /path HTTP/");
      At ([b]);
      At (bs ".");
      At ([b]);
      At ([13])] in
   (seen, version_major log, version_minor log)) (digit_vec) =
  map (fun b =>
    ([(ROk (SEos 15), Some StRequestVersionMajor1);
      (ROk (SEos 1), Some StRequestVersionMajor2);
      (ROk (SEos 1), Some StRequestVersionMinor1);
      (ROk (SEos 1), Some StRequestVersionMinor2);
      (ROk (SEos 1), Some StInitialLf)], ( b - 48 ), ( b - 48 ))) (digit_vec).
Proof. vm_compute. reflexivity. Qed.

(* /repo/src/http1/test/request/version.rs:88-150 *)
Example request_version_allowed2 :
  map (fun b => let '(seen, log) := play debug new []
     [At (bs "GET /path HTTP/");
      At ([b]);
      At ([b]);
      At (bs ".");
      At ([b]);
      At ([b]);
      At ([13])] in
   (seen, version_major log, version_minor log)) (digit_vec) =
  map (fun b =>
    ([(ROk (SEos 15), Some StRequestVersionMajor1);
      (ROk (SEos 1), Some StRequestVersionMajor2);
      (ROk (SEos 1), Some StRequestVersionMajor3);
      (ROk (SEos 1), Some StRequestVersionMinor1);
      (ROk (SEos 1), Some StRequestVersionMinor2);
      (ROk (SEos 1), Some StRequestVersionMinor3);
      (ROk (SEos 1), Some StInitialLf)], ( ( ( b - 48 ) * 10 ) + ( b - 48 ) ), ( ( ( b - 48 ) * 10 ) + ( b - 48 ) ))) (digit_vec).
Proof. vm_compute. reflexivity. Qed.

(* /repo/src/http1/test/request/version.rs:153-231 *)
Example request_version_allowed3 :
  map (fun b => let '(seen, log) := play debug new []
     [At (bs "GET /path HTTP/");
      At ([b]);
      At ([b]);
      At ([b]);
      At (bs ".");
      At ([b]);
      At ([b]);
      At ([b]);
      At ([13])] in
   (seen, version_major log, version_minor log)) (digit_vec) =
  map (fun b =>
    ([(ROk (SEos 15), Some StRequestVersionMajor1);
      (ROk (SEos 1), Some StRequestVersionMajor2);
      (ROk (SEos 1), Some StRequestVersionMajor3);
      (ROk (SEos 1), Some StRequestVersionPeriod);
      (ROk (SEos 1), Some StRequestVersionMinor1);
      (ROk (SEos 1), Some StRequestVersionMinor2);
      (ROk (SEos 1), Some StRequestVersionMinor3);
      (ROk (SEos 1), Some StRequestVersionCr);
      (ROk (SEos 1), Some StInitialLf)], ( ( ( b - 48 ) * 100 ) + ( ( b - 48 ) * 10 ) + ( b - 48 ) ), ( ( ( b - 48 ) * 100 ) + ( ( b - 48 ) * 10 ) + ( b - 48 ) ))) (digit_vec).
Proof. vm_compute. reflexivity. Qed.

(* /repo/src/http1/test/request/version.rs:234-255 *)
Example request_version_entire_iter :
  (let '(seen, log) := play debug new []
     [At (bs "GET /path HTTP/");
      By [49];
      By [46];
      By [49];
      By [13]] in
   (seen, version_major log, version_minor log)) =
    ([(ROk (SEos 15), Some StRequestVersionMajor1);
      (ROk (SEos 1), None);
      (ROk (SEos 1), None);
      (ROk (SEos 1), None);
      (ROk (SEos 1), None)], 1, 1).
Proof. vm_compute. reflexivity. Qed.

(* /repo/src/http1/test/request/version.rs:258-269 *)
Example request_version_major_not_allowed_error :
  map (fun b => fst (play debug new []
     [At (bs "GET /path HTTP/");
      At ([b])])) (non_digit_vec) =
  map (fun b =>
    [(ROk (SEos 15), Some StRequestVersionMajor1);
      (RErr (ErVersion (b)), Some StDead)]) (non_digit_vec).
Proof. vm_compute. reflexivity. Qed.

(* /repo/src/http1/test/request/version.rs:272-281 *)
Example request_version_major_overflow_error :
  fst (play debug new []
     [At (bs "GET /path HTTP/");
      At (bs "9990")]) =
    [(ROk (SEos 15), Some StRequestVersionMajor1);
      (RErr (ErVersion (48)), Some StDead)].
Proof. vm_compute. reflexivity. Qed.

(* /repo/src/http1/test/request/version.rs:284-303 *)
Example request_version_minor_not_allowed_error :
  map (fun b => fst (play debug new []
     [At (bs "GET /path HTTP/");
      At (bs "1.");
      At ([b])])) (non_digit_vec) =
  map (fun b =>
    [(ROk (SEos 15), Some StRequestVersionMajor1);
      (ROk (SEos 2), Some StRequestVersionMinor1);
      (RErr (ErVersion (b)), Some StDead)]) (non_digit_vec).
Proof. vm_compute. reflexivity. Qed.

(* /repo/src/http1/test/request/version.rs:306-315 *)
Example request_version_minor_overflow_error :
  fst (play debug new []
     [At (bs "GET /path HTTP/");
      At (bs "1.9990")]) =
    [(ROk (SEos 15), Some StRequestVersionMajor1);
      (RErr (ErVersion (48)), Some StDead)].
Proof. vm_compute. reflexivity. Qed.

(* /repo/src/http1/test/request/version.rs:318-331 *)
Example request_version_state_lower_header_name :
  fst (play debug new []
     [At (bs "GET /path HTTP/");
      By [49];
      By [46];
      By [49];
      By [13];
      By [10];
      By [72]]) =
    [(ROk (SEos 15), Some StRequestVersionMajor1);
      (ROk (SEos 1), None);
      (ROk (SEos 1), None);
      (ROk (SEos 1), None);
      (ROk (SEos 1), None);
      (ROk (SEos 1), None);
      (ROk (SEos 1), None)].
Proof. vm_compute. reflexivity. Qed.

(* /repo/src/http1/test/response/callback.rs:21-39 *)
Example response_callback_on_status :
  fst (play (refuses (fun e => match e with EData KStatus _ => true | _ => false end)) new []
     [At (bs "HTTP/1.1 200 X")]) =
    [(ROk (SCallback 14), Some StResponseStatus2)].
Proof. vm_compute. reflexivity. Qed.

(* /repo/src/http1/test/response/callback.rs:42-60 *)
Example response_callback_on_status_code :
  fst (play (refuses (fun e => match e with EStatusCode _ => true | _ => false end)) new []
     [At (bs "HTTP/1.1 200 ")]) =
    [(ROk (SCallback 13), Some StResponseStatus1)].
Proof. vm_compute. reflexivity. Qed.

(* /repo/src/http1/test/response/callback.rs:63-81 *)
Example response_callback_on_version :
  fst (play (refuses (fun e => match e with EVersion _ _ => true | _ => false end)) new []
     [At (bs "HTTP/1.1 ")]) =
    [(ROk (SCallback 9), Some StResponseStatusCode1)].
Proof. vm_compute. reflexivity. Qed.

(* /repo/src/http1/test/response/status.rs:38-58 *)
Example response_status_allowed :
  map (fun b => fst (play debug new []
     [At (bs "HTTP/1.1 200 ");
      At (bs "X");
      At ([b])])) (non_control_vec) =
  map (fun b =>
    [(ROk (SEos 13), Some StResponseStatus1);
      (ROk (SEos 1), Some StResponseStatus2);
      (ROk (SEos 1), Some StResponseStatus2)]) (non_control_vec).
Proof. vm_compute. reflexivity. Qed.

(* /repo/src/http1/test/response/status.rs:61-83 *)
Example response_status_entire_iter :
  (let '(seen, log) := play debug new []
     [At (bs "HTTP/1.1 200 ");
      By [78];
      By [79];
      By [84];
      By [32];
      By [70];
      By [79];
      By [85];
      By [78];
      By [68];
      By [13]] in
   (seen, text KStatus log)) =
    ([(ROk (SEos 13), Some StResponseStatus1);
      (ROk (SEos 1), None);
      (ROk (SEos 1), None);
      (ROk (SEos 1), None);
      (ROk (SEos 1), None);
      (ROk (SEos 1), None);
      (ROk (SEos 1), None);
      (ROk (SEos 1), None);
      (ROk (SEos 1), None);
      (ROk (SEos 1), None);
      (ROk (SEos 1), None)], bs "NOT FOUND").
Proof. vm_compute. reflexivity. Qed.

(* /repo/src/http1/test/response/status.rs:86-106 *)
Example response_status_not_allowed_error :
  map (fun b => fst (play debug new []
     [At (bs "HTTP/1.1 200 ");
      At (bs "X");
      At ([b])])) (filter (fun x => negb (x =? 13)) (control_vec)) =
  map (fun b =>
    [(ROk (SEos 13), Some StResponseStatus1);
      (ROk (SEos 1), Some StResponseStatus2);
      (RErr (ErStatus (b)), Some StDead)]) (filter (fun x => negb (x =? 13)) (control_vec)).
Proof. vm_compute. reflexivity. Qed.

(* /repo/src/http1/test/response/status.rs:109-121 *)
Example response_status_state_lower_header_name :
  fst (play debug new []
     [At (bs "HTTP/1.1 200 ");
      By [79];
      By [75];
      By [13];
      By [10];
      By [72]]) =
    [(ROk (SEos 13), Some StResponseStatus1);
      (ROk (SEos 1), None);
      (ROk (SEos 1), None);
      (ROk (SEos 1), None);
      (ROk (SEos 1), None);
      (ROk (SEos 1), None)].
Proof. vm_compute. reflexivity. Qed.

(* /repo/src/http1/test/response/status_code.rs:38-79 *)
Example response_status_code_allowed :
  map (fun b => let '(seen, log) := play debug new []
     [At (bs "HTTP/1.1 ");
      At ([b]);
      At ([b]);
      At ([b]);
      At (bs " ")] in
   (seen, status_code log)) (digit_vec) =
  map (fun b =>
    ([(ROk (SEos 9), Some StResponseStatusCode1);
      (ROk (SEos 1), Some StResponseStatusCode2);
      (ROk (SEos 1), Some StResponseStatusCode3);
      (ROk (SEos 1), Some StResponseStatusCodeSpace);
      (ROk (SEos 1), Some StResponseStatus1)], ( ( ( b - 48 ) * 100 ) + ( ( b - 48 ) * 10 ) + ( b - 48 ) ))) (digit_vec).
Proof. vm_compute. reflexivity. Qed.

(* /repo/src/http1/test/response/status_code.rs:82-100 *)
Example response_status_code_callback_exit :
  fst (play (refuses (fun e => match e with EStatusCode _ => true | _ => false end)) new []
     [At (bs "HTTP/1.1 200 ")]) =
    [(ROk (SCallback 13), Some StResponseStatus1)].
Proof. vm_compute. reflexivity. Qed.

(* /repo/src/http1/test/response/status_code.rs:103-119 *)
Example response_status_code_entire_iter :
  (let '(seen, log) := play debug new []
     [At (bs "HTTP/1.1 ");
      By [50];
      By [48];
      By [48];
      By [32]] in
   (seen, status_code log)) =
    ([(ROk (SEos 9), Some StResponseStatusCode1);
      (ROk (SEos 1), None);
      (ROk (SEos 1), None);
      (ROk (SEos 1), None);
      (ROk (SEos 1), None)], 200).
Proof. vm_compute. reflexivity. Qed.

(* /repo/src/http1/test/response/status_code.rs:122-136 *)
Example response_status_code_not_allowed_error1 :
  map (fun b => fst (play debug new []
     [At (bs "HTTP/1.1 ");
      At ([b])])) (filter (fun x => negb (x =? 32)) (filter (fun x => negb (x =? 9)) (filter (fun x => negb (is_digit x)) (range 0 255)))) =
  map (fun b =>
    [(ROk (SEos 9), Some StResponseStatusCode1);
      (RErr (ErStatusCode (b)), Some StDead)]) (filter (fun x => negb (x =? 32)) (filter (fun x => negb (x =? 9)) (filter (fun x => negb (is_digit x)) (range 0 255)))).
Proof. vm_compute. reflexivity. Qed.

(* /repo/src/http1/test/response/status_code.rs:139-161 *)
Example response_status_code_not_allowed_error2 :
  map (fun b => fst (play debug new []
     [At (bs "HTTP/1.1 ");
      At (bs "1");
      At ([b])])) (filter (fun x => negb (x =? 32)) (filter (fun x => negb (x =? 9)) (filter (fun x => negb (is_digit x)) (range 0 255)))) =
  map (fun b =>
    [(ROk (SEos 9), Some StResponseStatusCode1);
      (ROk (SEos 1), Some StResponseStatusCode2);
      (RErr (ErStatusCode (b)), Some StDead)]) (filter (fun x => negb (x =? 32)) (filter (fun x => negb (x =? 9)) (filter (fun x => negb (is_digit x)) (range 0 255)))).
Proof. vm_compute. reflexivity. Qed.

(* /repo/src/http1/test/response/status_code.rs:164-186 *)
Example response_status_code_not_allowed_error3 :
  map (fun b => fst (play debug new []
     [At (bs "HTTP/1.1 ");
      At (bs "12");
      At ([b])])) (filter (fun x => negb (x =? 32)) (filter (fun x => negb (x =? 9)) (filter (fun x => negb (is_digit x)) (range 0 255)))) =
  map (fun b =>
    [(ROk (SEos 9), Some StResponseStatusCode1);
      (ROk (SEos 2), Some StResponseStatusCode3);
      (RErr (ErStatusCode (b)), Some StDead)]) (filter (fun x => negb (x =? 32)) (filter (fun x => negb (x =? 9)) (filter (fun x => negb (is_digit x)) (range 0 255)))).
Proof. vm_compute. reflexivity. Qed.

(* /repo/src/http1/test/response/status_code.rs:189-200 *)
Example response_status_code_state_response_status1 :
  fst (play debug new []
     [At (bs "HTTP/1.1 ");
      By [50];
      By [48];
      By [48];
      By [32]]) =
    [(ROk (SEos 9), Some StResponseStatusCode1);
      (ROk (SEos 1), None);
      (ROk (SEos 1), None);
      (ROk (SEos 1), None);
      (ROk (SEos 1), None)].
Proof. vm_compute. reflexivity. Qed.

(* /repo/src/http1/test/response/version.rs:39-85 *)
Example response_version_allowed1 :
  map (fun b => let '(seen, log) := play debug new []
     [At (bs "HTTP/");
      At ([b]);
      At (bs ".");
      At ([b]);
      At (bs " ")] in
   (seen, version_major log, version_minor log)) (digit_vec) =
  map (fun b =>
    ([(ROk (SEos 5), Some StResponseVersionMajor1);
      (ROk (SEos 1), Some StResponseVersionMajor2);
      (ROk (SEos 1), Some StResponseVersionMinor1);
      (ROk (SEos 1), Some StResponseVersionMinor2);
      (ROk (SEos 1), Some StResponseStatusCode1)], ( b - 48 ), ( b - 48 ))) (digit_vec).
Proof. vm_compute. reflexivity. Qed.

(* /repo/src/http1/test/response/version.rs:88-150 *)
Example response_version_allowed2 :
  map (fun b => let '(seen, log) := play debug new []
     [At (bs "HTTP/");
      At ([b]);
      At ([b]);
      At (bs ".");
      At ([b]);
      At ([b]);
      At (bs " ")] in
   (seen, version_major log, version_minor log)) (digit_vec) =
  map (fun b =>
    ([(ROk (SEos 5), Some StResponseVersionMajor1);
      (ROk (SEos 1), Some StResponseVersionMajor2);
      (ROk (SEos 1), Some StResponseVersionMajor3);
      (ROk (SEos 1), Some StResponseVersionMinor1);
      (ROk (SEos 1), Some StResponseVersionMinor2);
      (ROk (SEos 1), Some StResponseVersionMinor3);
      (ROk (SEos 1), Some StResponseStatusCode1)], ( ( ( b - 48 ) * 10 ) + ( b - 48 ) ), ( ( ( b - 48 ) * 10 ) + ( b - 48 ) ))) (digit_vec).
Proof. vm_compute. reflexivity. Qed.

(* /repo/src/http1/test/response/version.rs:153-231 *)
Example response_version_allowed3 :
  map (fun b => let '(seen, log) := play debug new []
     [At (bs "HTTP/");
      At ([b]);
      At ([b]);
      At ([b]);
      At (bs ".");
      At ([b]);
      At ([b]);
      At ([b]);
      At (bs " ")] in
   (seen, version_major log, version_minor log)) (digit_vec) =
  map (fun b =>
    ([(ROk (SEos 5), Some StResponseVersionMajor1);
      (ROk (SEos 1), Some StResponseVersionMajor2);
      (ROk (SEos 1), Some StResponseVersionMajor3);
      (ROk (SEos 1), Some StResponseVersionPeriod);
      (ROk (SEos 1), Some StResponseVersionMinor1);
      (ROk (SEos 1), Some StResponseVersionMinor2);
      (ROk (SEos 1), Some StResponseVersionMinor3);
      (ROk (SEos 1), Some StResponseVersionSpace);
      (ROk (SEos 1), Some StResponseStatusCode1)], ( ( ( b - 48 ) * 100 ) + ( ( b - 48 ) * 10 ) + ( b - 48 ) ), ( ( ( b - 48 ) * 100 ) + ( ( b - 48 ) * 10 ) + ( b - 48 ) ))) (digit_vec).
Proof. vm_compute. reflexivity. Qed.

(* /repo/src/http1/test/response/version.rs:234-255 *)
Example response_version_entire_iter :
  (let '(seen, log) := play debug new []
     [At (bs "HTTP/");
      By [49];
      By [46];
      By [49];
      By [32]] in
   (seen, version_major log, version_minor log)) =
    ([(ROk (SEos 5), Some StResponseVersionMajor1);
      (ROk (SEos 1), None);
      (ROk (SEos 1), None);
      (ROk (SEos 1), None);
      (ROk (SEos 1), None)], 1, 1).
Proof. vm_compute. reflexivity. Qed.

(* /repo/src/http1/test/response/version.rs:258-269 *)
Example response_version_major_not_allowed_error :
  map (fun b => fst (play debug new []
     [At (bs "HTTP/");
      At ([b])])) (non_digit_vec) =
  map (fun b =>
    [(ROk (SEos 5), Some StResponseVersionMajor1);
      (RErr (ErVersion (b)), Some StDead)]) (non_digit_vec).
Proof. vm_compute. reflexivity. Qed.

(* /repo/src/http1/test/response/version.rs:272-281 *)
Example response_version_major_overflow_error :
  fst (play debug new []
     [At (bs "HTTP/");
      At (bs "9990")]) =
    [(ROk (SEos 5), Some StResponseVersionMajor1);
      (RErr (ErVersion (48)), Some StDead)].
Proof. vm_compute. reflexivity. Qed.

(* /repo/src/http1/test/response/version.rs:284-303 *)
Example response_version_minor_not_allowed_error :
  map (fun b => fst (play debug new []
     [At (bs "HTTP/");
      At (bs "1.");
      At ([b])])) (non_digit_vec) =
  map (fun b =>
    [(ROk (SEos 5), Some StResponseVersionMajor1);
      (ROk (SEos 2), Some StResponseVersionMinor1);
      (RErr (ErVersion (b)), Some StDead)]) (non_digit_vec).
Proof. vm_compute. reflexivity. Qed.

(* /repo/src/http1/test/response/version.rs:306-315 *)
Example response_version_minor_overflow_error :
  fst (play debug new []
     [At (bs "HTTP/");
      At (bs "1.9990")]) =
    [(ROk (SEos 5), Some StResponseVersionMajor1);
      (RErr (ErVersion (48)), Some StDead)].
Proof. vm_compute. reflexivity. Qed.

(* /repo/src/http1/test/response/version.rs:318-329 *)
Example response_version_state_response_status_code1 :
  fst (play debug new []
     [At (bs "HTTP/");
      By [49];
      By [46];
      By [49];
      By [32]]) =
    [(ROk (SEos 5), Some StResponseVersionMajor1);
      (ROk (SEos 1), None);
      (ROk (SEos 1), None);
      (ROk (SEos 1), None);
      (ROk (SEos 1), None)].
Proof. vm_compute. reflexivity. Qed.

(* /repo/src/http1/test/url_encoded/callback.rs:21-42 *)
Example url_encoded_callback_on_url_encoded_begin :
  fst (play (refuses (fun e => match e with EUrlBegin => true | _ => false end)) new []
     [Do init_url_encoded;
      Do (fun p => set_length p 1000);
      At (bs "N")]) =
    [(ROk (SCallback 0), Some StUrlEncodedName)].
Proof. vm_compute. reflexivity. Qed.

(* /repo/src/http1/test/url_encoded/callback.rs:45-66 *)
Example url_encoded_callback_on_url_encoded_name :
  fst (play (refuses (fun e => match e with EData KUrlName _ => true | _ => false end)) new []
     [Do init_url_encoded;
      Do (fun p => set_length p 1000);
      At (bs "N")]) =
    [(ROk (SCallback 1), Some StUrlEncodedName)].
Proof. vm_compute. reflexivity. Qed.

(* /repo/src/http1/test/url_encoded/callback.rs:69-90 *)
Example url_encoded_callback_on_url_encoded_value :
  fst (play (refuses (fun e => match e with EData KUrlValue _ => true | _ => false end)) new []
     [Do init_url_encoded;
      Do (fun p => set_length p 1000);
      At (bs "N=V")]) =
    [(ROk (SCallback 3), Some StUrlEncodedValue)].
Proof. vm_compute. reflexivity. Qed.

(* /repo/src/http1/test/url_encoded/finished.rs:21-43 *)
Example url_encoded_finished_finished :
  (let '(seen, log) := play debug new []
     [Do init_url_encoded;
      Do (fun p => set_length p 22);
      At (bs "Name+1%21=Value%201%21")] in
   (seen, text KUrlName log, text KUrlValue log)) =
    ([(ROk (SFinished 22), Some StFinished)], bs "Name 1!", bs "Value 1!").
Proof. vm_compute. reflexivity. Qed.

(* /repo/src/http1/test/url_encoded/name.rs:33-56 *)
Example url_encoded_name_allowed :
  map (fun b => let '(seen, log) := play debug new []
     [Do init_url_encoded;
      Do (fun p => set_length p 1000);
      At ([b])] in
   (seen, text KUrlName log)) (filter (fun x => negb (x =? 59)) (filter (fun x => negb (x =? 38)) (filter (fun x => negb (x =? 43)) (filter (fun x => negb (x =? 37)) (filter (fun x => negb (x =? 61)) (visible_7bit_vec)))))) =
  map (fun b =>
    ([(ROk (SEos 1), Some StUrlEncodedName)], [b])) (filter (fun x => negb (x =? 59)) (filter (fun x => negb (x =? 38)) (filter (fun x => negb (x =? 43)) (filter (fun x => negb (x =? 37)) (filter (fun x => negb (x =? 61)) (visible_7bit_vec)))))).
Proof. vm_compute. reflexivity. Qed.

(* /repo/src/http1/test/url_encoded/name.rs:59-93 *)
Example url_encoded_name_entire_iter :
  (let '(seen, log) := play debug new []
     [Do init_url_encoded;
      Do (fun p => set_length p 1000);
      By [78];
      By [97];
      By [109];
      By [101];
      By [43];
      By [49];
      By [37];
      By [50];
      By [49];
      By [59];
      By [78];
      By [97];
      By [109];
      By [101];
      By [37];
      By [50];
      By [48];
      By [50];
      By [37];
      By [50];
      By [49];
      By [61]] in
   (seen, text KUrlName log)) =
    ([(ROk (SEos 1), None);
      (ROk (SEos 1), None);
      (ROk (SEos 1), None);
      (ROk (SEos 1), None);
      (ROk (SEos 1), None);
      (ROk (SEos 1), None);
      (ROk (SEos 1), None);
      (ROk (SEos 1), None);
      (ROk (SEos 1), None);
      (ROk (SEos 1), None);
      (ROk (SEos 1), None);
      (ROk (SEos 1), None);
      (ROk (SEos 1), None);
      (ROk (SEos 1), None);
      (ROk (SEos 1), None);
      (ROk (SEos 1), None);
      (ROk (SEos 1), None);
      (ROk (SEos 1), None);
      (ROk (SEos 1), None);
      (ROk (SEos 1), None);
      (ROk (SEos 1), None);
      (ROk (SEos 1), None)], bs "Name 1!Name 2!").
Proof. vm_compute. reflexivity. Qed.

(* /repo/src/http1/test/url_encoded/name.rs:96-107 *)
Example url_encoded_name_not_allowed_error :
  map (fun b => fst (play debug new []
     [Do init_url_encoded;
      Do (fun p => set_length p 1000);
      At ([b])])) (non_visible_7bit_vec) =
  map (fun b =>
    [(RErr (ErUrlEncodedName (b)), Some StDead)]) (non_visible_7bit_vec).
Proof. vm_compute. reflexivity. Qed.

(* /repo/src/http1/test/url_encoded/name.rs:110-121 *)
Example url_encoded_name_state_url_encoded_name_hex :
  fst (play debug new []
     [Do init_url_encoded;
      Do (fun p => set_length p 1000);
      By [78];
      By [37];
      By [50];
      By [48]]) =
    [(ROk (SEos 1), None);
      (ROk (SEos 1), None);
      (ROk (SEos 1), None);
      (ROk (SEos 1), None)].
Proof. vm_compute. reflexivity. Qed.

(* /repo/src/http1/test/url_encoded/name.rs:124-133 *)
Example url_encoded_name_state_first_url_encoded_name1 :
  fst (play debug new []
     [Do init_url_encoded;
      Do (fun p => set_length p 1000);
      By [78];
      By [59]]) =
    [(ROk (SEos 1), None);
      (ROk (SEos 1), None)].
Proof. vm_compute. reflexivity. Qed.

(* /repo/src/http1/test/url_encoded/name.rs:136-145 *)
Example url_encoded_name_state_first_url_encoded_name2 :
  fst (play debug new []
     [Do init_url_encoded;
      Do (fun p => set_length p 1000);
      By [78];
      By [38]]) =
    [(ROk (SEos 1), None);
      (ROk (SEos 1), None)].
Proof. vm_compute. reflexivity. Qed.

(* /repo/src/http1/test/url_encoded/name.rs:148-157 *)
Example url_encoded_name_state_url_encoded_name_plus :
  fst (play debug new []
     [Do init_url_encoded;
      Do (fun p => set_length p 1000);
      By [78];
      By [43]]) =
    [(ROk (SEos 1), None);
      (ROk (SEos 1), None)].
Proof. vm_compute. reflexivity. Qed.

(* /repo/src/http1/test/url_encoded/name.rs:160-169 *)
Example url_encoded_name_state_url_encoded_value :
  fst (play debug new []
     [Do init_url_encoded;
      Do (fun p => set_length p 1000);
      By [78];
      By [61]]) =
    [(ROk (SEos 1), None);
      (ROk (SEos 1), None)].
Proof. vm_compute. reflexivity. Qed.

(* /repo/src/http1/test/url_encoded/value.rs:41-74 *)
Example url_encoded_value_allowed :
  map (fun b => let '(seen, log) := play debug new []
     [Do init_url_encoded;
      Do (fun p => set_length p 1000);
      At (bs "N=");
      Do init_url_encoded;
      Do (fun p => set_length p 1000);
      At (bs "N=");
      At ([b])] in
   (seen, text KUrlValue log)) (filter (fun x => negb (x =? 59)) (filter (fun x => negb (x =? 38)) (filter (fun x => negb (x =? 43)) (filter (fun x => negb (x =? 37)) (visible_7bit_vec))))) =
  map (fun b =>
    ([(ROk (SEos 2), Some StUrlEncodedValue);
      (ROk (SEos 2), Some StUrlEncodedValue);
      (ROk (SEos 1), Some StUrlEncodedValue)], [b])) (filter (fun x => negb (x =? 59)) (filter (fun x => negb (x =? 38)) (filter (fun x => negb (x =? 43)) (filter (fun x => negb (x =? 37)) (visible_7bit_vec))))).
Proof. vm_compute. reflexivity. Qed.

(* /repo/src/http1/test/url_encoded/value.rs:77-111 *)
Example url_encoded_value_entire_iter :
  (let '(seen, log) := play debug new []
     [Do init_url_encoded;
      Do (fun p => set_length p 1000);
      At (bs "N=");
      By [86];
      By [97];
      By [108];
      By [117];
      By [101];
      By [43];
      By [49];
      By [37];
      By [50];
      By [49];
      By [86];
      By [97];
      By [108];
      By [117];
      By [101];
      By [37];
      By [50];
      By [48];
      By [50];
      By [37];
      By [50];
      By [49]] in
   (seen, text KUrlValue log)) =
    ([(ROk (SEos 2), Some StUrlEncodedValue);
      (ROk (SEos 1), None);
      (ROk (SEos 1), None);
      (ROk (SEos 1), None);
      (ROk (SEos 1), None);
      (ROk (SEos 1), None);
      (ROk (SEos 1), None);
      (ROk (SEos 1), None);
      (ROk (SEos 1), None);
      (ROk (SEos 1), None);
      (ROk (SEos 1), None);
      (ROk (SEos 1), None);
      (ROk (SEos 1), None);
      (ROk (SEos 1), None);
      (ROk (SEos 1), None);
      (ROk (SEos 1), None);
      (ROk (SEos 1), None);
      (ROk (SEos 1), None);
      (ROk (SEos 1), None);
      (ROk (SEos 1), None);
      (ROk (SEos 1), None);
      (ROk (SEos 1), None);
      (ROk (SEos 1), None)], bs "Value 1!Value 2!").
Proof. vm_compute. reflexivity. Qed.

(* /repo/src/http1/test/url_encoded/value.rs:114-125 *)
Example url_encoded_value_not_allowed_error :
  map (fun b => fst (play debug new []
     [Do init_url_encoded;
      Do (fun p => set_length p 1000);
      At (bs "N=");
      At ([b])])) (non_visible_7bit_vec) =
  map (fun b =>
    [(ROk (SEos 2), Some StUrlEncodedValue);
      (RErr (ErUrlEncodedValue (b)), Some StDead)]) (non_visible_7bit_vec).
Proof. vm_compute. reflexivity. Qed.

(* /repo/src/http1/test/url_encoded/value.rs:128-139 *)
Example url_encoded_value_state_url_encoded_value_hex :
  fst (play debug new []
     [Do init_url_encoded;
      Do (fun p => set_length p 1000);
      At (bs "N=");
      By [86];
      By [37];
      By [50];
      By [48]]) =
    [(ROk (SEos 2), Some StUrlEncodedValue);
      (ROk (SEos 1), None);
      (ROk (SEos 1), None);
      (ROk (SEos 1), None);
      (ROk (SEos 1), None)].
Proof. vm_compute. reflexivity. Qed.

(* /repo/src/http1/test/url_encoded/value.rs:142-151 *)
Example url_encoded_value_state_first_url_encoded_name1 :
  fst (play debug new []
     [Do init_url_encoded;
      Do (fun p => set_length p 1000);
      At (bs "N=");
      By [86];
      By [59]]) =
    [(ROk (SEos 2), Some StUrlEncodedValue);
      (ROk (SEos 1), None);
      (ROk (SEos 1), None)].
Proof. vm_compute. reflexivity. Qed.

(* /repo/src/http1/test/url_encoded/value.rs:154-163 *)
Example url_encoded_value_state_first_url_encoded_name2 :
  fst (play debug new []
     [Do init_url_encoded;
      Do (fun p => set_length p 1000);
      At (bs "N=");
      By [86];
      By [38]]) =
    [(ROk (SEos 2), Some StUrlEncodedValue);
      (ROk (SEos 1), None);
      (ROk (SEos 1), None)].
Proof. vm_compute. reflexivity. Qed.

(* /repo/src/http1/test/url_encoded/value.rs:166-175 *)
Example url_encoded_value_state_url_encoded_value_plus :
  fst (play debug new []
     [Do init_url_encoded;
      Do (fun p => set_length p 1000);
      At (bs "N=");
      By [86];
      By [43]]) =
    [(ROk (SEos 2), Some StUrlEncodedValue);
      (ROk (SEos 1), None);
      (ROk (SEos 1), None)].
Proof. vm_compute. reflexivity. Qed.

