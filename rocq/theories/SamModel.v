(** Model of the SAMv3 control protocol: /repo/emissary-core/src/sam/parser.rs (commands),
    sam/socket.rs (reading) and sam/pending/connection.rs (handshake).  A command is the list
    of bytes of a UTF-8 string. *)
From Coq Require Import Ascii String.
From Coq Require Import List NArith Bool Arith.
From Verif Require Import Bytes PrimModel EncModel I2cpModel.
Import ListNotations.
Local Open Scope list_scope.
Open Scope N_scope.
Open Scope parser_scope.

(** String literals of the code. *)
Fixpoint lit (s : string) : bytes :=
  match s with
  | EmptyString => []
  | String a t => N_of_ascii a :: lit t
  end.

(** ** nom combinators used by the parser (nom 7, complete) *)
(** [tag] *)
Definition p_tag (t : bytes) (i : bytes) : option (bytes * bytes) :=
  if starts_with t i then Some (t, skipn (length t) i) else None.
(** [alt] of tags: the first that matches. *)
Fixpoint p_tags (ts : list bytes) (i : bytes) : option (bytes * bytes) :=
  match ts with
  | [] => None
  | t :: r => match p_tag t i with Some x => Some x | None => p_tags r i end
  end.
(** [opt(char(' '))] *)
Definition skip_space (i : bytes) : bytes :=
  match i with b :: r => if b =? 32 then r else i | [] => i end.
(** [multispace0]: space, tab, carriage return, line feed. *)
Definition is_multispace (b : N) : bool := existsb (N.eqb b) [32; 9; 13; 10].
Fixpoint skip_multispace (i : bytes) : bytes :=
  match i with b :: r => if is_multispace b then skip_multispace r else i | [] => [] end.

Definition is_alpha (b : N) : bool := rng 65 90 b || rng 97 122 b.
Definition is_digit (b : N) : bool := rng 48 57 b.
Definition key_start (b : N) : bool := is_alpha b || (b =? 95).
Definition key_more (b : N) : bool := is_alpha b || is_digit b || (b =? 95) || (b =? 46).
Fixpoint span (f : N -> bool) (i : bytes) : bytes * bytes :=
  match i with
  | b :: r => if f b then let '(a, z) := span f r in (b :: a, z) else ([], i)
  | [] => ([], [])
  end.
(** sam/parser.rs:681-687 [parse_key]: [alpha1] or an underscore, then any of alphanumeric, [_], [.].
    Taking a run at once or character by character accepts the same text. *)
Definition parse_key (i : bytes) : option (bytes * bytes) :=
  match i with
  | b :: r => if key_start b then let '(a, z) := span key_more r in Some (b :: a, z) else None
  | [] => None
  end.

(** [char::is_whitespace] on the UTF-8 encoding: does a white-space character start here?
    U+0009-000D, 0020, 0085, 00A0, 1680, 2000-200A, 2028, 2029, 202F, 205F, 3000. *)
Definition ws_at (i : bytes) : bool :=
  match i with
  | a :: r =>
      if rng 9 13 a || (a =? 32) then true
      else match r with
           | b :: r2 =>
               if (a =? 194) && ((b =? 133) || (b =? 160)) then true
               else match r2 with
                    | c :: _ =>
                        ((a =? 225) && (b =? 154) && (c =? 128)) ||
                        ((a =? 226) && (b =? 128) &&
                           (rng 128 138 c || (c =? 168) || (c =? 169) || (c =? 175))) ||
                        ((a =? 226) && (b =? 129) && (c =? 159)) ||
                        ((a =? 227) && (b =? 128) && (c =? 128))
                    | [] => false
                    end
           | [] => false
           end
  | [] => false
  end.
(** [take_while(!is_whitespace)] *)
Fixpoint raw_span (i : bytes) : bytes * bytes :=
  if ws_at i then ([], i)
  else match i with
       | b :: r => let '(a, z) := raw_span r in (b :: a, z)
       | [] => ([], [])
       end.

(** The [escaped] combinator with normal text anything but quote and backslash, control character backslash
    and escapable quote or backslash: the text up to a quote or the end of the input. *)
Fixpoint esc_scan (i : bytes) : option (bytes * bytes) :=
  match i with
  | [] => Some ([], [])
  | b :: r =>
      if b =? 34 then Some ([], i)
      else if b =? 92 then
        match r with
        | c :: r2 =>
            if (c =? 34) || (c =? 92) then
              match esc_scan r2 with Some (a, z) => Some (b :: c :: a, z) | None => None end
            else None
        | [] => None
        end
      else match esc_scan r with Some (a, z) => Some (b :: a, z) | None => None end
  end.
(** sam/parser.rs:696-702 [parse_quoted_value].  [escaped] fails when it stops at a quote
    without having read anything; the closing quote must follow. *)
Definition parse_quoted (i : bytes) : option (bytes * bytes) :=
  match i with
  | q :: r =>
      if q =? 34 then
        match esc_scan r with
        | Some (a, z) =>
            match a, z with
            | _ :: _, q2 :: z' => if q2 =? 34 then Some (a, z') else None
            | _, _ => None
            end
        | None => None
        end
      else None
  | [] => None
  end.
(** sam/parser.rs:689-694 [parse_value] *)
Definition parse_value (i : bytes) : option (bytes * bytes) :=
  match parse_quoted i with
  | Some x => Some x
  | None => let '(a, z) := raw_span i in match a with [] => None | _ => Some (a, z) end
  end.
(** sam/parser.rs:677-679 [parse_key_value] *)
Definition parse_key_value (i : bytes) : option (bytes * bytes * bytes) :=
  match parse_key i with
  | Some (k, e :: r) =>
      if e =? 61 then
        match parse_value r with Some (v, z) => Some (k, v, z) | None => None end
      else None
  | _ => None
  end.
(** sam/parser.rs:672-675: [many0(preceded(multispace0, parse_key_value))]; each round
    consumes at least three bytes, so the length of the input is enough fuel. *)
Fixpoint parse_kvs (fuel : nat) (i : bytes) : list mapping :=
  match fuel with
  | O => []
  | S f =>
      match parse_key_value (skip_multispace i) with
      | Some (k, v, z) => (k, v) :: parse_kvs f z
      | None => []
      end
  end.

(** ** sam/parser.rs: commands *)
(** parser.rs:71-84 [SessionKind], 97-109 [SamVersion] *)
Inductive session_kind : Type := SkStream | SkDatagram | SkAnonymous.
Inductive sam_version : Type := V31 | V32 | V33.
Definition version_of (s : bytes) : option sam_version :=
  if beq s (lit "3.1") then Some V31
  else if beq s (lit "3.2") then Some V32
  else if beq s (lit "3.3") then Some V33
  else None.
Definition show_version (v : sam_version) : bytes :=
  match v with V31 => lit "3.1" | V32 => lit "3.2" | V33 => lit "3.3" end.

(** parser.rs:134-145 [DestinationContext]: generated for [TRANSIENT], else the destination
    and the two private keys the client gave. *)
Inductive dest_context : Type :=
| Transient
| Persistent (d : destination) (private_key signing_key : bytes).
(** parser.rs:164-184 [HostKind]; a [DestinationId] is the decoded hash. *)
Inductive host_kind : Type :=
| HkDestination (d : destination)
| HkB32 (id : bytes)
| HkHost (name : bytes).
(** parser.rs:213-287 [SamCommand] without the never-constructed [Dummy]. *)
Inductive sam_command : Type :=
| CHello (min max : option sam_version)
| CCreate (id : bytes) (kind : session_kind) (dest : dest_context) (options : list mapping)
| CConnect (id : bytes) (host : host_kind) (options : list mapping)
| CAccept (id : bytes) (options : list mapping)
| CForward (id : bytes) (port : N) (options : list mapping)
| CLookup (name : bytes)
| CGenerate.

(** [HashMap::remove] *)
Definition mremove (k : bytes) (m : list mapping) : list mapping :=
  filter (fun kv => negb (beq k (fst kv))) m.

(** [str::find], [str::ends_with] *)
Fixpoint find_sub (p i : bytes) : option nat :=
  if starts_with p i then Some O
  else match i with [] => None | _ :: r => option_map S (find_sub p r) end.
Definition ends_with (p i : bytes) : bool :=
  if (length p <=? length i)%nat then beq (skipn (length i - length p) i) p else false.

Section WithExt.
Variable e : ext.

(** parser.rs:365-400: the value of [DESTINATION] of a [SESSION CREATE]. *)
Definition create_dest (v : bytes) : option dest_context :=
  if beq v (lit "TRANSIENT") then Some Transient
  else match base64_decode v with
       | None => None
       | Some raw =>
           match (d <- parse_dest e ;; pk <- take 32 ;; sk <- take 32 ;; ret (d, pk, sk)) raw with
           | Some (d, pk, sk, _) => Some (Persistent d pk sk)
           | None => None
           end
       end.

(** parser.rs:434-442, 462-468: number of bytes of a URL scheme. *)
Definition scheme_len (v : bytes) : nat :=
  if starts_with (lit "http://") v then 7
  else if starts_with (lit "https://") v then 8 else 0.
(** parser.rs:426-481: the value of [DESTINATION] of a [STREAM CONNECT].  [slice] start is
    never past its end: a scheme contains no [.b32.i2p]. *)
Definition connect_host (v : bytes) : option host_kind :=
  match find_sub (lit ".b32.i2p") v with
  | Some end_ =>
      match base32_decode (slice (scheme_len v) end_ v) with
      | Some id => Some (HkB32 id)
      | None => None
      end
  | None =>
      if ends_with (lit ".i2p") v then Some (HkHost (skipn (scheme_len v) v))
      else match base64_decode v with
           | None => None
           | Some raw =>
               match parse_dest e raw with
               | Some (d, _) => Some (HkDestination d)
               | None => None
               end
           end
  end.

(** parser.rs:306-578 [TryFrom<ParsedCommand>].  [m] is the map of key-value pairs. *)
Definition interpret (cmd : bytes) (sub : option bytes) (m : list mapping) : option sam_command :=
  let is c s := beq cmd (lit c) && match sub with Some x => beq x (lit s) | None => false end in
  if is "HELLO"%string "VERSION"%string then
    Some (CHello (match mget (lit "MIN") m with Some v => version_of v | None => None end)
                 (match mget (lit "MAX") m with Some v => version_of v | None => None end))
  else if is "SESSION"%string "CREATE"%string then
    match mget (lit "ID") m with
    | None => None
    | Some id =>
        let m1 := mremove (lit "ID") m in
        match mget (lit "STYLE") m1 with
        | None => None
        | Some style =>
            let m2 := mremove (lit "STYLE") m1 in
            let forwarded :=
              match mget (lit "PORT") m2 with
              | None => None
              | Some _ =>
                  Some (match mget (lit "HOST") m2 with
                        | None => minsert (lit "HOST") (lit "127.0.0.1") m2
                        | Some _ => m2
                        end)
              end in
            let style :=
              if beq style (lit "STREAM") then Some (SkStream, m2)
              else if beq style (lit "RAW") then option_map (pair SkAnonymous) forwarded
              else if beq style (lit "DATAGRAM") then option_map (pair SkDatagram) forwarded
              else None in
            match style with
            | None => None
            | Some (kind, m3) =>
                match mget (lit "DESTINATION") m3 with
                | None => None
                | Some dv =>
                    match create_dest dv with
                    | None => None
                    | Some d => Some (CCreate id kind d (mremove (lit "DESTINATION") m3))
                    end
                end
            end
        end
    end
  else if is "STREAM"%string "CONNECT"%string then
    match mget (lit "ID") m, mget (lit "DESTINATION") m with
    | Some id, Some dv =>
        match connect_host dv with
        | Some h => Some (CConnect id h m)
        | None => None
        end
    | _, _ => None
    end
  else if is "STREAM"%string "ACCEPT"%string then
    match mget (lit "ID") m with Some id => Some (CAccept id m) | None => None end
  else if is "STREAM"%string "FORWARD"%string then
    match mget (lit "ID") m, mget (lit "PORT") m with
    | Some id, Some p =>
        match parse_dec 65535 p with
        | Some port => Some (CForward id port m)
        | None => None
        end
    | _, _ => None
    end
  else if is "NAMING"%string "LOOKUP"%string then
    match mget (lit "NAME") m with Some n => Some (CLookup n) | None => None end
  else if is "DEST"%string "GENERATE"%string then
    match mget (lit "SIGNATURE_TYPE") m with
    | Some t => if beq t (lit "7") then Some CGenerate else None
    | None => None
    end
  else None.

(** parser.rs:584-621 [parse_inner], [parse]: what follows the pairs is ignored. *)
Definition commands : list bytes :=
  [lit "HELLO"; lit "SESSION"; lit "STREAM"; lit "NAMING"; lit "DEST"].
Definition subcommands : list bytes :=
  [lit "VERSION"; lit "CREATE"; lit "CONNECT"; lit "ACCEPT"; lit "FORWARD"; lit "LOOKUP";
   lit "GENERATE"].
Definition sam_parse (i : bytes) : option sam_command :=
  match p_tags commands i with
  | None => None
  | Some (cmd, r) =>
      let r := skip_space r in
      let '(sub, r) := match p_tags subcommands r with
                       | Some (s, r') => (Some s, r')
                       | None => (None, r)
                       end in
      let r := skip_space r in
      interpret cmd sub (into_hashmap (parse_kvs (S (length r)) r))
  end.

(** ** sam/socket.rs: reading *)
(** socket.rs:56-75, 81-92: buffer of 4096 bytes, offset; [sr_closed]: the stream ended. *)
Record sam_reader : Type := mkSamReader { sr_buf : bytes; sr_off : nat; sr_closed : bool }.
Definition sam_buffer : nat := 4096.
Definition sam_reader_new : sam_reader := mkSamReader (repeat 0 sam_buffer) 0 false.

(** socket.rs:114: the slice handed to [poll_read].  When it is empty (4096 bytes without a
    newline) the read returns zero and the stream ends. *)
Definition sam_room (r : sam_reader) : option nat :=
  if sr_closed r then None else Some (sam_buffer - sr_off r)%nat.

(** socket.rs:126-166: a read that stored [chunk] (not empty, at most [sam_room] bytes).  The
    newline is searched in the whole buffer; an unparsable command is skipped; text that is
    not UTF-8 ends the stream. *)
Definition sam_on_read (r : sam_reader) (chunk : bytes) : sam_reader * list sam_command :=
  let buf := put_at (sr_off r) chunk (sr_buf r) in
  match position 10 buf with
  | None => (mkSamReader buf (sr_off r + length chunk) (sr_closed r), [])
  | Some pos =>
      if utf8_ok (firstn pos buf) then
        (mkSamReader buf 0 (sr_closed r),
         match sam_parse (firstn pos buf) with Some c => [c] | None => [] end)
      else (mkSamReader buf (sr_off r) true, [])
  end.

(** ** sam/pending/connection.rs *)
(** connection.rs:170-188 [PendingConnectionState], and how the future ended. *)
Inductive conn_kind : Type :=
| KSession (id : bytes) (kind : session_kind) (dest : dest_context) (options : list mapping)
| KStream (id : bytes) (host : host_kind) (options : list mapping)
| KAccept (id : bytes) (options : list mapping)
| KForward (id : bytes) (port : N) (options : list mapping).
Inductive conn_state : Type :=
| AwaitingHandshake
| Handshaked (v : sam_version)
| ConnReady (v : sam_version) (k : conn_kind)
| ConnFailed.

(** What the connection's poll sees: a command from the socket, the end of the socket, or the
    keep-alive timer. *)
Inductive conn_event : Type := EvCommand (c : sam_command) | EvClosed | EvTimeout.

(** connection.rs:229-241 *)
Definition negotiate (max : option sam_version) : sam_version :=
  match max with Some V33 => V32 | Some v => v | None => V32 end.

(** connection.rs:222-468 [poll]: new state and the reply queued on the socket, if any.
    [gen] is the reply to [DEST GENERATE] (its keys are random). *)
Definition conn_step (gen : bytes) (s : conn_state) (ev : conn_event) : conn_state * list bytes :=
  match s with
  | ConnReady _ _ | ConnFailed => (s, [])
  | AwaitingHandshake =>
      match ev with
      | EvCommand (CHello _ max) =>
          let v := negotiate max in
          (Handshaked v, [lit "HELLO REPLY RESULT=OK VERSION=" ++ show_version v ++ [10]])
      | _ => (ConnFailed, [])
      end
  | Handshaked v =>
      match ev with
      | EvCommand (CCreate id k d o) => (ConnReady v (KSession id k d o), [])
      | EvCommand (CConnect id h o) => (ConnReady v (KStream id h o), [])
      | EvCommand (CAccept id o) => (ConnReady v (KAccept id o), [])
      | EvCommand (CForward id p o) => (ConnReady v (KForward id p o), [])
      | EvCommand (CLookup n) =>
          (Handshaked v, [lit "NAMING REPLY RESULT=KEY_NOT_FOUND NAME=" ++ n ++ [10]])
      | EvCommand CGenerate => (Handshaked v, [gen])
      | EvCommand (CHello _ _) => (ConnFailed, [])
      | EvClosed | EvTimeout => (ConnFailed, [])
      end
  end.

(** connection.rs:418-447: the reply to [DEST GENERATE] for given keys. *)
Definition generate_reply (padding private_key signing_key : bytes) : bytes :=
  let d := dest_new e padding (ed_public e signing_key) in
  lit "DEST REPLY PUB=" ++ base64_encode (ser_dest d) ++ lit " PRIV=" ++
  base64_encode (ser_dest d ++ private_key ++ signing_key) ++ [10].
End WithExt.
