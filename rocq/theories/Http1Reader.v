(* How an arbitrary stream of bytes has to be understood: a reader for heads,
   chunked, multipart and URL-encoded bodies, written as a recursive descent
   along the grammar of Http1Accept.v and telling, besides, what is seen of a
   message that is not complete yet, which byte of it is expected next, and which
   error a wrong one is answered with.  Vocabulary of the properties on arbitrary
   streams; independent of the parser model (only the types of observations, errors
   and states are shared; what a state means: /repo/src/http1/parser_state.rs). *)

From Coq Require Import NArith List Bool Arith String.
From Verif Require Import Bytes Http1Model Http1Spec Http1Protocol Http1Wire.
Import ListNotations.
Local Open Scope N_scope.

(* ------------------------------------------------------------------ *)
(* Readers                                                              *)
(* ------------------------------------------------------------------ *)

(* The stream starts with a message, followed by rest; it may still become
   one, and the state named is that in which its next byte is expected; it cannot,
   because of this error; the parser panics on it. *)
Inductive reading := Complete (rest : list byte) | Partial (at_ : pstate) | Wrong (e : perror) | Crash.

(* Given what was seen before and the stream: everything seen, and the
   verdict. *)
Definition reader := list fevent -> list byte -> list fevent * reading.

Definition complete : reader := fun l s => (l, Complete s).
Definition wrong (e : perror) : reader := fun l _ => (l, Wrong e).
Definition crash : reader := fun l _ => (l, Crash).
Definition say (ev : list fevent) (k : reader) : reader := fun l s => k (l ++ ev) s.

(* The next byte, expected in the state at_, decides. *)
Definition next (at_ : pstate) (f : byte -> reader) : reader :=
  fun l s => match s with [] => (l, Partial at_) | b :: s' => f b l s' end.

(* The next byte, which is not consumed, has to satisfy p. *)
Definition check (at_ : pstate) (p : byte -> bool) (err : byte -> perror) (k : reader) : reader :=
  fun l s =>
    match s with [] => (l, Partial at_) | b :: _ => if p b then k l s else (l, Wrong (err b)) end.

(* This byte has to follow; these bytes have to follow. *)
Definition expect (at_ : pstate) (c : byte) (err : byte -> perror) (k : reader) : reader :=
  next at_ (fun b => if b =? c then k else wrong (err b)).
Fixpoint literal (at_ : pstate) (w : list byte) (err : byte -> perror) (k : reader) : reader :=
  match w with
  | [] => k
  | c :: w' => expect at_ c err (literal at_ w' err k)
  end.

(* All bytes that satisfy p; at least one, which is expected in the state first. *)
Fixpoint many (at_ : pstate) (p : byte -> bool) (show : byte -> list fevent) (k : reader) (l : list fevent)
         (s : list byte) : list fevent * reading :=
  match s with
  | [] => (l, Partial at_)
  | b :: s' => if p b then many at_ p show k (l ++ show b) s' else k l s
  end.
Definition some (first at_ : pstate) (p : byte -> bool) (show : byte -> list fevent) (err : byte -> perror)
           (k : reader) : reader := check first p err (many at_ p show k).

(* n bytes, whatever they are. *)
Fixpoint exactly (at_ : pstate) (n : N) (show : byte -> list fevent) (k : reader) (l : list fevent)
         (s : list byte) : list fevent * reading :=
  match s with
  | [] => (l, Partial at_)
  | b :: s' =>
      if n =? 0 then k l s
      else if n =? 1 then k (l ++ show b) s'
      else exactly at_ (n - 1) show k (l ++ show b) s'
  end.

(* f, which may start over with what is left of the stream. *)
Fixpoint rounds (n : nat) (f : reader -> reader) : reader :=
  match n with
  | O => crash                         (* not reached: every round uses a byte *)
  | S n' => f (rounds n' f)
  end.
Definition repeating (f : reader -> reader) : reader := fun l s => rounds (S (List.length s)) f l s.

(* How bytes are reported: as part of an item, or not. *)
Definition as_is (k : dkind) (b : byte) : list fevent := [FByte k b].
Definition lowered (k : dkind) (b : byte) : list fevent := [FByte k (lower_case b)].
Definition hidden (b : byte) : list fevent := [].

(* ------------------------------------------------------------------ *)
(* Numbers                                                              *)
(* ------------------------------------------------------------------ *)

Definition digitb (b : byte) : bool := (48 <=? b) && (b <=? 57).
Definition hexb (b : byte) : bool :=
  digitb b || ((65 <=? b) && (b <=? 70)) || ((97 <=? b) && (b <=? 102)).

(* Further digits of a number, v so far, at most one in each of the states more, and
   the byte stop. *)
Fixpoint digits (more : list pstate) (last : pstate) (v : N) (stop : byte) (err : byte -> perror)
         (k : N -> reader) : reader :=
  match more with
  | [] => expect last stop err (k v)
  | at_ :: more' =>
      next at_ (fun b =>
        if b =? stop then k v
        else if digitb b then digits more' last (10 * v + (b - 48)) stop err k else wrong (err b))
  end.
(* One to three digits and the byte stop. *)
Definition number (first second third last : pstate) (stop : byte) (err : byte -> perror)
           (k : N -> reader) : reader :=
  next first (fun b =>
    if digitb b then digits [second; third] last (b - 48) stop err k else wrong (err b)).

(* One digit in each of the states. *)
Fixpoint code (ats : list pstate) (v : N) (err : byte -> perror) (k : N -> reader) : reader :=
  match ats with
  | [] => k v
  | at_ :: ats' =>
      next at_ (fun b => if digitb b then code ats' (10 * v + (b - 48)) err k else wrong (err b))
  end.

(* ------------------------------------------------------------------ *)
(* Header lines                                                         *)
(* ------------------------------------------------------------------ *)

Definition padb (b : byte) : bool := (b =? 32) || (b =? 9).

(* The value and the end of the line.  0xFF outside an escape is not in the
   tables of the parser. *)
Definition text_at (m : qmode) : pstate :=
  match m with Plain => StHeaderValue | Quoted => StHeaderQuotedValue | Escaped => StHeaderEscapedValue end.
Fixpoint text (m : qmode) (k : reader) (l : list fevent) (s : list byte) : list fevent * reading :=
  match s with
  | [] => (l, Partial (text_at m))
  | b :: s' =>
      let go m := text m k (l ++ [FByte KHeaderValue b]) s' in
      match m with
      | Plain =>
          if b =? 34 then go Quoted
          else if field_byte b then go Plain
          else if b =? 13 then expect StHeaderLf1 10 ErCrlfSequence k l s'
          else if 255 <=? b then (l, Crash) else (l, Wrong (ErHeaderValue b))
      | Quoted =>
          if b =? 34 then go Plain
          else if b =? 92 then go Escaped
          else if field_byte b then go Quoted
          else if 255 <=? b then (l, Crash) else (l, Wrong (ErHeaderValue b))
      | Escaped => if (32 <=? b) && (b <=? 122) then go Quoted else (l, Wrong (ErHeaderValue b))
      end
  end.

(* Lines up to the empty one: fields, and lines that continue the one before. *)
Definition header_name (k : reader) : reader :=
  many StLowerHeaderName tchar (lowered KHeaderName)
    (next StLowerHeaderName (fun b => if b =? 58 then k
                    else if 255 <=? b then crash else wrong (ErHeaderName b))).
Definition lines (k : reader) : reader :=
  repeating (fun again =>
    let field :=
      check StHeaderCr2 visible_byte ErHeaderName
        (header_name
          (many StStripHeaderValue padb hidden
            (check StStripHeaderValue visible_byte ErHeaderValue (text Plain again)))) in
    fun l s =>
      match s with
      | [] => (l, Partial StHeaderCr2)
      | b :: s' =>
          if b =? 13 then expect StHeaderLf2 10 ErCrlfSequence (say [FEv EHeadersFinished] k) l s'
          else if padb b then text Plain again l s'
          else field l s
      end).

(* ------------------------------------------------------------------ *)
(* Heads                                                                *)
(* ------------------------------------------------------------------ *)

Definition request_version (k : reader) : reader :=
  number StRequestVersionMajor1 StRequestVersionMajor2 StRequestVersionMajor3 StRequestVersionPeriod
    46 ErVersion (fun major =>
  number StRequestVersionMinor1 StRequestVersionMinor2 StRequestVersionMinor3 StRequestVersionCr
    13 ErVersion (fun minor =>
  say [FEv (EVersion major minor)] k)).
Definition response_version (k : reader) : reader :=
  number StResponseVersionMajor1 StResponseVersionMajor2 StResponseVersionMajor3 StResponseVersionPeriod
    46 ErVersion (fun major =>
  number StResponseVersionMinor1 StResponseVersionMinor2 StResponseVersionMinor3 StResponseVersionSpace
    32 ErVersion (fun minor =>
  say [FEv (EVersion major minor)] k)).

(* The end of the first line, after its CR, and the header lines. *)
Definition fields : reader :=
  say [FEv EInitialFinished] (expect StInitialLf 10 ErCrlfSequence (lines complete)).

Definition upperb (b : byte) : bool := (65 <=? b) && (b <=? 90).
Definition request_line : reader :=
  some StDetect1 StRequestMethod upperb (as_is KMethod) ErMethod
  (expect StRequestMethod 32 ErMethod
  (some StRequestUrl1 StRequestUrl2 visible_byte (as_is KUrl) ErUrl
  (expect StRequestUrl2 32 ErUrl
  (expect StRequestHttp1 72 ErVersion
  (expect StRequestHttp2 84 ErVersion
  (expect StRequestHttp3 84 ErVersion
  (expect StRequestHttp4 80 ErVersion
  (expect StRequestHttp5 47 ErVersion
  (request_version fields))))))))).

Definition reasonb (b : byte) : bool := (32 <=? b) && negb (b =? 127).
(* After "HTTP/". *)
Definition status_line : reader :=
  response_version
  (code [StResponseStatusCode1; StResponseStatusCode2; StResponseStatusCode3] 0 ErStatusCode (fun c =>
  expect StResponseStatusCodeSpace 32 ErStatusCode
  (say [FEv (EStatusCode c)]
  (some StResponseStatus1 StResponseStatus2 reasonb (as_is KStatus) ErStatus
  (expect StResponseStatus2 13 ErStatus
  fields))))).

(* w is a beginning of s. *)
Fixpoint begins (w s : list byte) : bool :=
  match w, s with
  | [], _ => true
  | c :: w', b :: s' => (c =? b) && begins w' s'
  | _, _ => false
  end.

(* The state in which the byte after m is expected, m a beginning of "HTTP/". *)
Definition detecting (m : list byte) : pstate :=
  match List.length m with
  | 0%nat => StStripDetect
  | 1%nat => StDetect2
  | 2%nat => StDetect3
  | 3%nat => StDetect4
  | _ => StDetect5
  end.

Definition read_head (s : list byte) : list fevent * reading :=
  let m := strip s in
  if begins (bs "HTTP/") m then status_line [] (skipn 5 m)
  else if begins m (bs "HTTP/") then ([], Partial (detecting m))
  else request_line [] m.

(* ------------------------------------------------------------------ *)
(* Chunked bodies                                                       *)
(* ------------------------------------------------------------------ *)

(* An extension value; stop is told which of ';' and CR ends it. *)
Definition ext_text_at (m : qmode) : pstate :=
  match m with
  | Plain => StChunkExtensionValue
  | Quoted => StChunkExtensionQuotedValue
  | Escaped => StChunkExtensionEscapedValue
  end.
Fixpoint ext_text (m : qmode) (stop : byte -> reader) (l : list fevent) (s : list byte)
  : list fevent * reading :=
  match s with
  | [] => (l, Partial (ext_text_at m))
  | b :: s' =>
      let quote m := ext_text m stop l s' in
      let go m := ext_text m stop (l ++ [FByte KChunkExtValue b]) s' in
      match m with
      | Plain =>
          if b =? 34 then quote Quoted
          else if (b =? 59) || (b =? 13) then stop b l s'
          else if field_byte b then go Plain
          else if 255 <=? b then (l, Crash) else (l, Wrong (ErChunkExtensionValue b))
      | Quoted =>
          if b =? 34 then quote Plain
          else if b =? 92 then quote Escaped
          else if field_byte b then go Quoted
          else if 255 <=? b then (l, Crash) else (l, Wrong (ErChunkExtensionValue b))
      | Escaped =>
          if (32 <=? b) && (b <=? 122) then go Quoted else (l, Wrong (ErChunkExtensionValue b))
      end
  end.

(* Extensions, after the first ';', to the CR. *)
Definition extensions (k : reader) : reader :=
  repeating (fun again =>
    let ended b := say [FEv EChunkExtFinished] (if b =? 13 then k else again) in
    many StStripChunkExtensionName padb hidden
    (check StStripChunkExtensionName visible_byte ErChunkExtensionName
    (many StLowerChunkExtensionName tchar (lowered KChunkExtName)
    (next StLowerChunkExtensionName (fun b =>
       if b =? 61
       then many StStripChunkExtensionValue padb hidden
            (check StStripChunkExtensionValue visible_byte ErChunkExtensionValue (ext_text Plain ended))
       else if (b =? 59) || (b =? 13) then ended b
       else if 255 <=? b then crash else wrong (ErChunkExtensionName b)))))).

(* The length, v so far: at most one further digit in each of the states more, and
   what comes after. *)
Fixpoint size (more : list pstate) (v : N) (cr semicolon : N -> reader) : reader :=
  next (hd StChunkLengthCr more) (fun b =>
    if b =? 13 then say [FEv (EChunkLength v)] (cr v)
    else if b =? 59 then say [FEv (EChunkLength v)] (semicolon v)
    else match more with
         | [] => wrong (ErChunkLength b)
         | _ :: more' =>
             if hexb b then size more' (16 * v + hexval b) cr semicolon else wrong (ErChunkLength b)
         end).

(* The rest of a chunk of length v, after the CR of its first line. *)
Definition chunk_body (again : reader) (v : N) : reader :=
  say [FEv EChunkExtsFinished]
  (expect StChunkLengthLf 10 ErCrlfSequence
  (exactly StChunkData v (as_is KChunkData)
  (expect StChunkDataCr 13 ErCrlfSequence
  (expect StChunkDataLf 10 ErCrlfSequence again)))).

(* What comes after the last chunk, after its CR. *)
Definition trailers : reader :=
  expect StHeaderLf1 10 ErCrlfSequence (lines (say [FEv EBodyFinished] complete)).

Definition chunked : reader :=
  repeating (fun again =>
    let cr v := if v =? 0 then trailers else chunk_body again v in
    let semicolon v := extensions (chunk_body again v) in
    next StChunkLength1 (fun b =>
      if hexb b
      then say [FEv EChunkBegin]
             (size (if b =? 48 then []
                    else [StChunkLength2; StChunkLength3; StChunkLength4; StChunkLength5;
                          StChunkLength6; StChunkLength7; StChunkLength8])
                   (hexval b) cr semicolon)
      else wrong (ErChunkLength b))).
Definition read_chunked (s : list byte) : list fevent * reading := chunked [] s.

(* ------------------------------------------------------------------ *)
(* Multipart bodies                                                     *)
(* ------------------------------------------------------------------ *)

Section Multipart.
  Variables (bd : list byte) (clen : list fevent -> option N).

  Definition data (d : list byte) : list fevent := map (FByte KMultipartData) d.

  (* The rest y of the boundary, after CR LF "--" and x; otherwise all that is
     data. *)
  Fixpoint or_data (x y : list byte) (again k : reader) : reader :=
    match y with
    | [] => k
    | c :: y' => fun l s =>
        match s with
        | [] => (l, Partial StMultipartBoundary)
        | b :: s' =>
            if b =? c then or_data (x ++ [c]) y' again k l s'
            else again (l ++ data (crlf ++ bs "--" ++ x)) s
        end
    end.

  (* Data up to the next delimiter. *)
  Definition search (k : reader) : reader :=
    repeating (fun again =>
      next StMultipartDataByByte (fun b => if negb (b =? 13) then say (data [b]) again else
      next StMultipartDataByByteLf (fun b => if negb (b =? 10) then say (data [13; b]) again else
      next StMultipartHyphen1 (fun b => if negb (b =? 45) then say (data [13; 10; b]) again else
      next StMultipartHyphen2 (fun b => if negb (b =? 45) then say (data [13; 10; 45; b]) again else
      or_data [] bd again k))))).

  (* Hyphens and boundary. *)
  Definition delimiter (k : reader) : reader :=
    expect StMultipartHyphen1 45 ErMultipartBoundary
    (expect StMultipartHyphen2 45 ErMultipartBoundary
    (literal StMultipartBoundary bd ErMultipartBoundary k)).

  (* Where the byte after the boundary is expected: an empty boundary is looked at only
     when this byte is there. *)
  Definition past_boundary : pstate :=
    match bd with [] => StMultipartBoundary | _ => StMultipartBoundaryCr end.

  (* After a boundary: the end or a part.  The line feed is expected in the state in which
     that of the first line of a head is; MultipartBoundaryLf is not used. *)
  Definition parts : reader :=
    repeating (fun again =>
      let content : reader := fun l =>
        say [FEv EContentLength]
          match clen l with
          | Some n => exactly StMultipartDataByLength n (as_is KMultipartData)
                        (expect StMultipartDataByLengthCr 13 ErMultipartBoundary
                        (expect StMultipartDataByLengthLf 10 ErMultipartBoundary
                        (delimiter again)))
          | None => search again
          end l in
      next past_boundary (fun b =>
        if b =? 13
        then say [FEv EMultipartBegin] (expect StInitialLf 10 ErCrlfSequence (lines content))
        else if b =? 45 then expect StMultipartEnd 45 ErMultipartBoundary (say [FEv EBodyFinished] complete)
        else wrong (ErMultipartBoundary b))).

  Definition read_multipart (s : list byte) : list fevent * reading :=
    delimiter parts [] s.
End Multipart.

(* ------------------------------------------------------------------ *)
(* URL-encoded bodies                                                   *)
(* ------------------------------------------------------------------ *)

(* Encoded text up to one of the bytes in stop, which k is told; hex1, hex2: where the
   digits of an escape are expected. *)
Fixpoint decoded (at_ hex1 hex2 : pstate) (d : dkind) (err : byte -> perror) (stop : list byte)
         (k : byte -> reader) (l : list fevent) (s : list byte) : list fevent * reading :=
  match s with
  | [] => (l, Partial at_)
  | b :: s' =>
      if b =? 37 then
        match s' with
        | [] => (l, Partial hex1)
        | x :: s'' =>
            if hexb x then
              match s'' with
              | [] => (l, Partial hex2)
              | y :: s''' =>
                  if hexb y
                  then decoded at_ hex1 hex2 d err stop k (l ++ [FByte d (16 * hexval x + hexval y)]) s'''
                  else (l, Wrong (err y))
              end
            else (l, Wrong (err x))
        end
      else if b =? 43 then decoded at_ hex1 hex2 d err stop k (l ++ [FByte d 32]) s'
      else if existsb (N.eqb b) stop then k b l s'
      else if visible_byte b then decoded at_ hex1 hex2 d err stop k (l ++ [FByte d b]) s'
      else (l, Wrong (err b))
  end.

Definition pairs : reader :=
  repeating (fun again l s =>
    match s with
    | [] => (l, Partial StFirstUrlEncodedName)
    | _ =>
        say [FEv EUrlBegin]
          (decoded StUrlEncodedName StUrlEncodedNameHex1 StUrlEncodedNameHex2
             KUrlName ErUrlEncodedName (bs "=&;") (fun b =>
             if b =? 61
             then decoded StUrlEncodedValue StUrlEncodedValueHex1 StUrlEncodedValueHex2
                    KUrlValue ErUrlEncodedValue (bs "&;") (fun _ => again)
             else again)) l s
    end).

(* A body of n bytes: complete when they are there, unless wrong. *)
Definition read_url_encoded (n : N) (s : list byte) : list fevent * reading :=
  match pairs [] (firstn (N.to_nat n) s) with
  | (l, Partial at_) =>
      if n <=? N.of_nat (List.length s)
      then (l ++ [FEv EBodyFinished], Complete (skipn (N.to_nat n) s))
      else (l, Partial at_)
  | r => r
  end.

(* ------------------------------------------------------------------ *)
(* Agreement of a client with a reader                                  *)
(* ------------------------------------------------------------------ *)

(* The outcome is the verdict, everything seen has been reported and nothing
   else, and only what follows the message is left.  If the message is not complete,
   state() is the state in which its next byte is expected.  In case of an error or a
   panic, last bytes of the item in question may not have been reported. *)
Definition understood (same_error : perror -> perror -> Prop) (r : list fevent * reading)
           (f : parser * list event * list byte * ending) : Prop :=
  let '(p', log, rest, o) := f in
  match snd r with
  | Complete y => o = OFinished /\ flat log = fst r /\ rest = y /\ state p' = StFinished
  | Partial at_ => o = OEos /\ flat log = fst r /\ rest = [] /\ state p' = at_
  | Wrong e => (exists e', o = OError e' /\ same_error e' e) /\ nearly (flat log) (fst r) /\ state p' = StDead
  | Crash => (exists x, o = OFault x) /\ nearly (flat log) (fst r)
  end.
