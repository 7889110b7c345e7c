(** What a client may expect of its SAMv3 session, one remote destination at a time, from the
    requests and events that concern that destination. *)
From Coq Require Import Ascii String.
From Coq Require Import List NArith Bool.
From Verif Require Import Bytes NMap EncModel PrimModel I2cpModel SamModel DestModel SamSessModel.
Import ListNotations.
Local Open Scope list_scope.
Open Scope N_scope.

(** What is under way for one remote destination: clients' sockets that wait for its lease set,
    with their options; streams being opened; datagrams that wait; the name a lookup is for. *)
Record wait : Type := mkWait { ws : list (N * N); tries : nat; wd : list bytes; wname : option bytes }.
Definition no_wait : wait := mkWait [] 0 [] None.

Section Spec.
Variables (me : N) (dest : bytes) (stream book : bool) (did : bytes -> N).

(** A name: this session, the destination a .b32.i2p address stands for, a host name, or neither. *)
Inductive name_kind : Type := IsMe | IsB32 (d : N) | IsHost | IsBad.
Definition kind_of (name : bytes) : name_kind :=
  if beq name (lit "ME") then IsMe
  else match find_sub (lit ".b32.i2p") name with
       | Some end_ => match base32_decode (slice (scheme_len name) end_ name) with Some id => IsB32 (did id) | None => IsBad end
       | None => match find_sub (lit ".i2p") name with Some _ => IsHost | None => IsBad end
       end.

(** The control socket is open until the client closes it. *)
Definition ctl_step (c : bool) (op : xop) : bool := match op with XClosed | XEnd => false | _ => c end.

(** What an operation does for the destination [d]; [c]: the control socket is open. *)
Definition wait_step (d : N) (c : bool) (w : wait) (op : xop) : wait :=
  match op with
  | XConnect k d' o st =>
      if stream && (d' =? d) && negb (d =? me)
      then match st with
           | Found => mkWait (ws w) (S (tries w)) (wd w) (wname w)
           | _ => mkWait (ws w ++ [(k, o)]) (tries w) (wd w) (wname w)
           end
      else w
  | XDatagram d' x st =>
      if negb stream && (d' =? d) then match st with Found => w | _ => mkWait (ws w) (tries w) (wd w ++ [x]) (wname w) end else w
  | XName name st _ =>
      match kind_of name, st with
      | IsB32 d', (NotFound | Pending) => if c && (d' =? d) then mkWait (ws w) (tries w) (wd w) (Some name) else w
      | _, _ => w
      end
  | XFound d' _ => if d' =? d then mkWait [] (length (ws w)) [] None else w
  | XNotFound d' => if d' =? d then no_wait else w
  | XOpened d' true | XRejected d' => if d' =? d then mkWait [] 0 [] (wname w) else w
  | XEnd => no_wait
  | _ => w
  end.

Definition tell (c : bool) (line : bytes) : list xout := if c then [Say line] else [].

(** What comes out of an operation, but for the end of the session. *)
Definition expect (c : bool) (futs : nmap bytes) (next : N) (at_ : N -> wait) (op : xop) : list xout :=
  match op with
  | XConnect k d o st =>
      if negb stream then [XShut k] else if d =? me then [CantReach k]
      else match st with Found => [Open k d o] | _ => [] end
  | XAccept k | XForward k => if stream then [Listen k] else [XShut k]
  | XDatagram d x st => if stream then [Dropped d x] else match st with Found => [SendTo d x] | _ => [] end
  | XName name st value =>
      if negb c then []
      else match kind_of name with
           | IsMe => [Say (reply_ok (lit "ME") dest)]
           | IsB32 _ => match st with Found => [Say (reply_ok name value)] | _ => [] end
           | IsHost => if book then [AskBook next name] else [Say (reply_not_found name)]
           | IsBad => [Say (reply_invalid name)]
           end
  | XFound d value =>
      map (fun p => Open (fst p) d (snd p)) (ws (at_ d)) ++ map (SendTo d) (wd (at_ d))
      ++ match wname (at_ d) with Some n => tell c (reply_ok n value) | None => [] end
  | XNotFound d =>
      map (Dropped d) (wd (at_ d)) ++ repeat (Forget d) (tries (at_ d)) ++ map (fun p => CantReach (fst p)) (ws (at_ d))
      ++ match wname (at_ d) with Some n => tell c (reply_not_found n) | None => [] end
  | XOpened d true | XRejected d => map (fun p => XShut (fst p)) (ws (at_ d)) ++ map (Dropped d) (wd (at_ d))
  | XOpened _ false => []
  | XAnswer key v =>
      match nget key futs with
      | Some n => tell c (match v with Some x => reply_ok n x | None => reply_not_found n end)
      | None => []
      end
  | XClosed => if c then [StopStreams] else []
  | XEnd => []
  end.

(** Questions to the address book that are under way. *)
Definition futs_step (c : bool) (fn : nmap bytes * N) (op : xop) : nmap bytes * N :=
  match op with
  | XName name _ _ => match kind_of name with IsHost => if c && book then (nput (snd fn) name (fst fn), snd fn + 1) else fn | _ => fn end
  | XAnswer key _ => (ndel key (fst fn), snd fn)
  | XEnd => ([], snd fn)
  | _ => fn
  end.

Fixpoint ctl_run (c : bool) (ops : list xop) : bool := match ops with [] => c | op :: t => ctl_run (ctl_step c op) t end.
Fixpoint wait_run (d : N) (c : bool) (w : wait) (ops : list xop) : wait :=
  match ops with [] => w | op :: t => wait_run d (ctl_step c op) (wait_step d c w op) t end.
Fixpoint futs_run (c : bool) (fn : nmap bytes * N) (ops : list xop) : nmap bytes * N :=
  match ops with [] => fn | op :: t => futs_run (ctl_step c op) (futs_step c fn op) t end.
End Spec.

(** ** Sockets *)
Definition brought (op : xop) : list N := match op with XConnect k _ _ _ | XAccept k | XForward k => [k] | _ => [] end.
Definition parted (o : xout) : list N := match o with Open k _ _ | CantReach k | XShut k | Listen k => [k] | _ => [] end.
(** Sockets that wait for a lease set. *)
Definition sock_of (p : pstate) : list N := match p with AwaitingLeaseSet k _ => [k] | AwaitingSession => [] end.
Definition waiting_socks (s : sess) : list N := flat_map (fun e => flat_map sock_of (p_streams (snd e))) (x_out s).

(** ** Datagrams *)
Definition offered (d : N) (ops : list xop) : list bytes :=
  flat_map (fun op => match op with XDatagram d' x _ => if d' =? d then [x] else [] | _ => [] end) ops.
(** Datagrams to the destination in the order in which they were sent or dropped. *)
Definition settled (d : N) (os : list (list xout)) : list bytes :=
  flat_map (fun o => match o with SendTo d' x | Dropped d' x => if d' =? d then [x] else [] | _ => [] end) (concat os).

(** What the session may rely on: once it has been told that the lease set is not there, it is not
    told otherwise before it has been told how the lookup ended. *)
Fixpoint orderly (d : N) (busy : bool) (ops : list xop) : bool :=
  match ops with
  | [] => true
  | XDatagram d' _ st :: t =>
      if d' =? d then match st with Found => negb busy && orderly d busy t | _ => orderly d true t end else orderly d busy t
  | (XFound d' _ | XNotFound d') :: t => orderly d (busy && negb (d' =? d)) t
  | XEnd :: t => orderly d false t
  | _ :: t => orderly d busy t
  end.
(** What could make a session drop a datagram to [d] that waits. *)
Definition gives_up (d : N) (op : xop) : bool :=
  match op with
  | XNotFound d' | XOpened d' true | XRejected d' => d' =? d
  | XEnd => true
  | _ => false
  end.
Definition sent (d : N) (os : list (list xout)) : list bytes :=
  flat_map (fun o => match o with SendTo d' x => if d' =? d then [x] else [] | _ => [] end) (concat os).

(** What passes between a session and its destination about lease sets: a question with the
    answer given at once, and how a lookup ended. *)
Inductive word : Type := Asked (d : N) (st : lstatus) | Came (d : N) | Failed (d : N).
(** ... as the destination has it (DestModel.v) *)
Definition said (e : dop * list dout) : list word :=
  flat_map (fun o => match o with
                     | Status st => match fst e with Query _ r => [Asked r st] | _ => [] end
                     | LeaseSetFound r => [Came r]
                     | LeaseSetNotFound r => [Failed r]
                     | _ => []
                     end) (snd e).
(** ... and as a session for datagrams has it; [did] as above. *)
Definition told (did : bytes -> N) (op : xop) : list word :=
  match op with
  | XDatagram d _ st => [Asked d st]
  | XName name st _ => match kind_of did name with IsB32 d => [Asked d st] | _ => [] end
  | XFound d _ => [Came d]
  | XNotFound d => [Failed d]
  | _ => []
  end.
