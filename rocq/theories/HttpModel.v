(** The HTTP proxy of the command-line router: reading a request from a browser, checking and
    rewriting it, sending it to a destination, and answering with an error page.

    Models /repo/emissary-cli/src/proxy/http/{mod,response}.rs.  The HTTP parser ([httparse]), the
    URL parser ([url]) and the check for UTF-8 are parameters; their laws are in HttpSpec.v.
    Strings are lists of bytes.  Not modelled: the SAM session behind [connect] (its outcome is an
    argument), the listening socket, scheduling of requests among each other (each one is handled
    by its own task and shares nothing), logging. *)
From Coq Require Import Ascii String.
From Coq Require Import List NArith PeanoNat Bool.
From Verif Require Import Bytes SamModel.
Import ListNotations.
Local Open Scope list_scope.
Open Scope N_scope.

Definition CRLF : bytes := [13; 10].

(** [str::to_lowercase] on ASCII.  Header names are ASCII tokens; of the value of Connection
    (mod.rs:198) only equality with "upgrade" matters, and no other character has one of these
    letters as its lower case. *)
Definition lower_byte (c : N) : N := if (65 <=? c) && (c <=? 90) then c + 32 else c.
Definition lower (b : bytes) : bytes := map lower_byte b.

(** [str::starts_with], [ends_with], [strip_prefix], [contains] *)
Fixpoint starts_with (p b : bytes) : bool :=
  match p, b with
  | [], _ => true
  | x :: p', y :: b' => (x =? y) && starts_with p' b'
  | _, [] => false
  end.
Definition ends_with (s b : bytes) : bool := starts_with (rev s) (rev b).
Definition strip_prefix (p b : bytes) : bytes := if starts_with p b then skipn (length p) b else b.
Fixpoint contains (p b : bytes) : bool :=
  starts_with p b || match b with [] => false | _ :: r => contains p r end.

(** A parsed head: [httparse::Request]. *)
Record head := mkHead { h_method : option bytes; h_path : option bytes; h_headers : list (bytes * bytes) }.
(** What [httparse] says of some bytes: an error, that more is needed, or a head and where it ends. *)
Inductive presult := PErr | PPartial | PComplete (h : head) (n : nat).
(** What [url::Url::parse] says: host, path and query. *)
Record url := mkUrl { u_host : bytes; u_path : bytes; u_query : option bytes }.

(** [HttpError] (error.rs) *)
Inductive herror := EIo | EMalformed | EMethod | EInvalidHost | EInvalidPath.

Section Proxy.
Variable httparse : bytes -> presult.
Variable url_parse : bytes -> option url.
Variable utf8 : bytes -> bool.

(** ILLEGAL (mod.rs:43-56) *)
Definition ILLEGAL : list bytes :=
  [lit "accept"; lit "referer"; lit "x-requested-with"; lit "via"; lit "from"; lit "forwarded"; lit "dnt"; lit "x-forwarded"; lit "proxy-"].

(** One header as it is written out: its name, ": ", its value and the end of the line. *)
Definition put_header (n v : bytes) : bytes := n ++ lit ": " ++ v ++ CRLF.

(** What becomes of one header (mod.rs:181-240). *)
Definition sanitize (host : bytes) (hd : bytes * bytes) : bytes :=
  let n := lower (fst hd) in
  let v := snd hd in
  if beq n (lit "user-agent") then put_header (lit "User-Agent") (lit "MYOB/6.66 (AN/ON)")
  else if starts_with (lit "accept") n then
    if beq n (lit "accept-encoding") then put_header (lit "Accept-Encoding") v else []
  else if beq n (lit "connection") then
    if utf8 v && beq (lower v) (lit "upgrade") then put_header (lit "Connection") (lit "upgrade")
    else put_header (lit "Connection") (lit "close")
  else if beq n (lit "referer") then
    if utf8 v && contains host v then put_header (lit "Referer") v else []
  else if existsb (fun p => starts_with p n) ILLEGAL then []
  else put_header (fst hd) v.

(** The host asked for (mod.rs:133-156). *)
Definition find_host (hs : list (bytes * bytes)) : option bytes :=
  match find (fun hd => beq (lower (fst hd)) (lit "host")) hs with
  | None => None
  | Some hd => Some (snd hd)
  end.

(** The path written out (mod.rs:157-163). *)
Definition out_path (p : bytes) : bytes :=
  match url_parse p with
  | Some u => match u_query u with Some q => u_path u ++ lit "?" ++ q | None => u_path u end
  | None => p
  end.

Inductive parsed := PReject (e : herror) | PAccept (host request : bytes) | PPanic.

(** [parse_request] (mod.rs:122-246) *)
Definition parse_request (request : bytes) : parsed :=
  match httparse request with
  | PErr => PReject EMalformed
  | PPartial => PPanic
  | PComplete h body_start =>
    match h_method h with
    | None => PReject EMethod
    | Some m =>
      if beq m (lit "GET") || beq m (lit "POST") then
        match find_host (h_headers h) with
        | None => PReject EInvalidHost
        | Some v =>
          if utf8 v then
            let host := strip_prefix (lit "www.") v in
            if ends_with (lit ".i2p") host then
              match h_path h with
              | None => PReject EInvalidPath
              | Some p =>
                PAccept host (m ++ lit " " ++ out_path p ++ lit " " ++ lit "HTTP/1.1" ++ CRLF
                  ++ flat_map (sanitize host) (h_headers h) ++ CRLF ++ skipn body_start request)
              end
            else PReject EInvalidHost
          else PReject EMalformed
        end
      else PReject EMethod
    end
  end.

(** What the proxy reads from the browser: bytes, the end of the stream or an error; [RTimeout] is
    the timeout of ten seconds (mod.rs:343-344). *)
Inductive rd := RData (b : bytes) | REof | RErr | RTimeout.

(** The buffer (mod.rs:254) *)
Definition BUF : nat := N.to_nat 8192.

Inductive rresult := RWaiting | RDropped | RFailed (e : herror) | RReady (host request : bytes) | RPanicked.

(** [read_request] (mod.rs:253-282) under its timeout.  A read takes no more than what is left of
    the buffer; a read of nothing counts as the end of the stream, also when nothing is left of the
    buffer while there is more to read. *)
Fixpoint read_request (buf : bytes) (rs : list rd) : rresult :=
  match rs with
  | [] => RWaiting
  | RTimeout :: _ => RDropped
  | RErr :: _ => RFailed EIo
  | REof :: _ => RFailed EIo
  | RData b :: r =>
    match firstn (BUF - length buf) b with
    | [] => RFailed EIo
    | got =>
      let buf' := buf ++ got in
      match httparse buf' with
      | PErr => RFailed EMalformed
      | PPartial => match skipn (BUF - length buf) b with [] => read_request buf' r | _ => RFailed EIo end
      | PComplete _ _ =>
        match parse_request buf' with
        | PReject e => RFailed e
        | PAccept h q => RReady h q
        | PPanic => RPanicked
        end
      end
    end
  end.

(** ** Error pages (response.rs) *)
Inductive status := BadRequest | InternalServerError.
(** (response.rs:28-35) *)
Definition status_text (s : status) : bytes :=
  match s with BadRequest => lit "400 Bad Request" | InternalServerError => lit "500 Internal Server Error" end.

(** The page (response.rs:67-80).  Simplified: without the indentation and line feeds. *)
Definition page (s : status) (error : bytes) : bytes :=
  lit "<!DOCTYPE html><html><head><title>" ++ status_text s ++ lit "</title></head><body><h1>" ++ status_text s
  ++ lit "</h1><p>" ++ error ++ lit "</p></body></html>".

(** A number in decimal digits ([Display] of [usize]). *)
Fixpoint dec_from (fuel : nat) (n : N) : bytes :=
  match fuel with
  | O => []
  | S f => (if n <? 10 then [] else dec_from f (n / 10)) ++ [48 + n mod 10]
  end.
Definition dec (n : N) : bytes := dec_from (S (S (N.to_nat (N.log2 n)))) n.

(** [ResponseBuilder::build] (response.rs:62-87) *)
Definition response (s : status) (error : bytes) : bytes :=
  lit "HTTP/1.1 " ++ status_text s ++ CRLF ++ lit "Content-Type: text/html; charset=UTF-8" ++ CRLF
  ++ lit "Content-Length: " ++ dec (N.of_nat (length (page s error))) ++ CRLF ++ CRLF ++ page s error.

(** ** One connection of a browser *)
(** What [connect] comes to: it fails, or the destination answers with these bytes until it closes
    the stream. *)
Inductive conn := CFail | COk (answer : bytes).
Inductive hout := HConnect (host : bytes) | HToRemote (b : bytes) | HToClient (b : bytes).

(** [run] and [on_request] for one connection (mod.rs:284-334, 341-372, 381-383).  Once the request
    is written, bytes are only copied from the destination to the browser (330). *)
Definition serve (rs : list rd) (c : conn) : list hout :=
  match read_request [] rs with
  | RWaiting | RDropped | RPanicked => []
  | RFailed EIo => []
  | RFailed EInvalidHost => [HToClient (response BadRequest (lit "Only .i2p and .b32.i2p hosts are supported"))]
  | RFailed _ => [HToClient (response BadRequest (lit "Malformed request"))]
  | RReady host q =>
    HConnect host ::
    match c with
    | CFail => [HToClient (response InternalServerError (lit "Failed to establish connection to " ++ host))]
    | COk a => [HToRemote q; HToClient a]
    end
  end.
End Proxy.
