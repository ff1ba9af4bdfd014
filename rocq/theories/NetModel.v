(** Model of Net::Address and Net::Udp (rpp/net.h, rpp/pos/net_pos.cpp, rpp/w32/net_w32.cpp).

    The operating system is the table of open sockets, each with the datagrams that have arrived and
    were not read yet.  What it may decide by itself is an argument of each operation: which
    descriptor it hands out, whether it refuses, which datagrams arrive.  Logged warnings are left
    out, and so are ports that are in use, routing and delivery: [bind] and [send] are granted or
    refused, and a datagram that arrives may be any. *)
From stdpp Require Import gmap.
From Verif Require Import Base Word.
Open Scope Z_scope.

(** ** Address *)
(** sockaddr_in as bytes in memory: sin_port and sin_addr are in network order. *)
Record sockaddr := Sockaddr { sin_port : list Z; sin_addr : list Z }.
(** htons on a little endian machine, seen as bytes: the high byte first. *)
Definition htons (port : Z) : list Z := [port / 256; port mod 256].

(** inet_pton(AF_INET, ...) after POSIX: four decimal numbers of one to three digits, none above 255,
    separated by dots, and nothing else.  [cur]: the digits of the number being read. *)
Definition digit (c : Z) : option Z := if decide (48 <= c <= 57) then Some (c - 48) else None.
Definition number (ds : list Z) : option Z :=
  if decide (1 <= length ds <= 3)%nat then let v := foldl (fun a d => a * 10 + d) 0 ds in if decide (v <= 255) then Some v else None else None.
Fixpoint quad (done cur : list Z) (s : list Z) : option (list Z) :=
  match s with
  | [] => v ← number cur; if decide (length done = 3%nat) then Some (done ++ [v]) else None
  | c :: s => match digit c with
              | Some d => quad done (cur ++ [d]) s
              | None => if decide (c = 46) then v ← number cur; quad (done ++ [v]) [] s else None
              end
  end.
Definition inet_pton (s : list Z) : option (list Z) := quad [] [] s.

(** A String_View: [len] bytes from [off] in some buffer of the program. *)
Record view := View { buf : list Z; off : nat; len : nat }.
Definition text (v : view) : list Z := take (len v) (drop (off v) (buf v)).
(** What a function that takes a C string reads: the bytes before the first zero; outside the buffer
    is undefined. *)
Fixpoint c_str (b : list Z) : res (list Z) :=
  match b with [] => UB | x :: b => if decide (x = 0) then Ok [] else s ← c_str b; Ok (x :: s) end.

(** net_pos.cpp:10-19: the view's pointer is passed as it is. *)
Definition address (v : view) (port : Z) : res sockaddr :=
  s ← c_str (drop (off v) (buf v));
  match inet_pton s with Some a => Ok (Sockaddr (htons port) a) | None => Die end.
(** net_pos.cpp:21-26, net_w32.cpp:76-82: INADDR_ANY is 0. *)
Definition address_any (port : Z) : sockaddr := Sockaddr (htons port) [0; 0; 0; 0].
(** net_w32.cpp:54-74: a terminated copy is passed; a failure is logged and leaves the zeros of 60. *)
Definition address_w32 (v : view) (port : Z) : res sockaddr :=
  s ← c_str (text v ++ [0]);
  match inet_pton s with Some a => Ok (Sockaddr (htons port) a) | None => Ok (Sockaddr (htons port) [0; 0; 0; 0]) end.

(** ** Udp *)
(** net.h:14: the size of a Packet. *)
Definition unit_size : nat := 1472.
Record dgram := Dgram { payload : list Z; from : sockaddr }.
(** The open sockets, and the [fd] of each Udp object. *)
Record net := Net { socks : gmap Z (list dgram); objs : gmap nat Z }.
Definition with_socks f (s : net) : net := Net (f (socks s)) (objs s).
Definition with_objs f (s : net) : net := Net (socks s) (f (objs s)).

(** What the system does. *)
Definition sys_socket (got : option Z) (s : net) : Z * net :=
  match got with
  | Some fd => if decide (0 <= fd /\ socks s !! fd = None) then (fd, with_socks <[fd := []]> s) else (-1, s)
  | None => (-1, s)
  end.
(** Closing a descriptor that is not one of ours would close a stranger's. *)
Definition sys_close (fd : Z) (s : net) : res net := match socks s !! fd with Some _ => Ok (with_socks (delete fd) s) | None => UB end.
Inductive errno := EAGAIN | OTHER.
(** recvfrom with MSG_DONTWAIT | MSG_TRUNC: the full length of the datagram, of which at most [cap]
    bytes are stored. *)
Definition sys_recv (e : option errno) (fd : Z) (cap : nat) (s : net) : (errno + (dgram * Z * list Z)) * net :=
  match socks s !! fd, e with
  | None, _ => (inl OTHER, s)
  | _, Some e => (inl e, s)
  | Some [], None => (inl EAGAIN, s)
  | Some (d :: q), None => (inr (d, Z.of_nat (length (payload d)), take cap (payload d)), with_socks <[fd := q]> s)
  end.

Inductive op :=
| New (o : nat) (got : option Z)
| Destroy (o : nat)
| MoveNew (o src : nat)
| MoveAssign (o src : nat)
| Bind (o : nat) (granted : bool)
| Send (o : nat) (to : sockaddr) (pkt : list Z) (n : Z) (granted : bool)
| Recv (o : nat) (pkt : list Z) (e : option errno)
| Arrive (fd : Z) (d : dgram).   (* not by the program *)
(** What is seen of an operation. *)
Inductive event :=
| Quiet
| Opened (fd : Z)
| Closed (fd : Z)
| Arrived (fd : Z) (d : dgram)
| Sent (fd : Z) (to : sockaddr) (bytes : list Z) (ret : Z)
| Got (fd : Z) (len : Z) (who : option sockaddr) (pkt : list Z)
| Nothing (fd : Z) (pkt : list Z).

(** A C string of bytes copied over the front of a buffer. *)
Definition overwrite (new old : list Z) : list Z := new ++ drop (length new) old.
Definition obj (o : nat) (s : net) : res Z := match objs s !! o with Some fd => Ok fd | None => UB end.
Definition step (s : net) (o : op) : res (net * event) :=
  match o with
  | New o got =>                                   (* net_pos.cpp:28-33 *)
      match objs s !! o with
      | Some _ => UB
      | None => let '(fd, s) := sys_socket got s in
                if decide (fd < 0) then Die else Ok (with_objs <[o := fd]> s, Opened fd)
      end
  | Destroy o =>                                   (* 35-39 *)
      fd ← obj o s;
      let s := with_objs (delete o) s in
      if decide (fd = -1) then Ok (s, Quiet) else s ← sys_close fd s; Ok (s, Closed fd)
  | MoveNew o src =>                               (* 41-44 *)
      match objs s !! o with
      | Some _ => UB
      | None => fd ← obj src s; Ok (with_objs (fun m => <[src := -1]> (<[o := fd]> m)) s, Quiet)
      end
  | MoveAssign o src =>                            (* 46-50 *)
      _ ← obj o s;
      fd ← obj src s;
      Ok (with_objs (fun m => <[src := -1]> (<[o := fd]> m)) s, Quiet)
  | Bind o granted =>                              (* 52-56 *)
      fd ← obj o s;
      match socks s !! fd, granted with Some _, true => Ok (s, Quiet) | _, _ => Die end
  | Recv o pkt e =>                                (* 58-71 *)
      fd ← obj o s;
      match sys_recv e fd unit_size s with
      | (inl EAGAIN, s) => Ok (s, Nothing fd pkt)
      | (inl OTHER, s) => Ok (s, Got fd (wrap 64 (-1)) None pkt)
      | (inr (d, ret, bytes), s) => Ok (s, Got fd (wrap 64 ret) (Some (from d)) (overwrite bytes pkt))
      end
  | Send o to pkt n granted =>                     (* 73-81: the system reads [n] bytes of the packet *)
      fd ← obj o s;
      if decide (n <= Z.of_nat (length pkt)) then
        match socks s !! fd, granted with
        | Some _, true => Ok (s, Sent fd to (take (Z.to_nat n) pkt) n)
        | _, _ => Die
        end
      else UB
  | Arrive fd d => match socks s !! fd with Some q => Ok (with_socks <[fd := q ++ [d]]> s, Arrived fd d) | None => Ok (s, Quiet) end
  end.
Fixpoint run (s : net) (ops : list op) : res (net * list event) :=
  match ops with [] => Ok (s, []) | o :: ops => '(s, e) ← step s o; '(s, es) ← run s ops; Ok (s, e :: es) end.
Definition init : net := Net ∅ ∅.

(** ** Windows (net_w32.cpp:127-158): a datagram longer than the buffer is an error (WSAEMSGSIZE) and
    is lost; every error looks like no datagram.  A refused send returns -1 as u64. *)
Definition recv_w32 (e : option errno) (fd : Z) (pkt : list Z) (s : net) : option (Z * sockaddr) * list Z * net :=
  match socks s !! fd, e with
  | Some (d :: q), None =>
      let s := with_socks <[fd := q]> s in
      if decide (length (payload d) <= unit_size)%nat then (Some (Z.of_nat (length (payload d)), from d), overwrite (payload d) pkt, s)
      else (None, overwrite (take unit_size (payload d)) pkt, s)
  | _, _ => (None, pkt, s)
  end.
