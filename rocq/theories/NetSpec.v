(** What a program is expected to do with sockets, and what it expects of them. *)
From stdpp Require Import gmap.
From Verif Require Import Base Word NetModel.
Open Scope Z_scope.

(** Programs that use objects only while they exist, send and receive only with those that have a
    socket, use packets of the right size, and move only into objects without a socket.  [live]: the
    objects that exist and whether they have a socket. *)
Definition is_packet (p : list Z) : Prop := length p = unit_size.
Fixpoint proper (live : gmap nat bool) (ops : list op) : Prop :=
  match ops with
  | [] => True
  | New o _ :: ops => live !! o = None /\ proper (<[o := true]> live) ops
  | Destroy o :: ops => is_Some (live !! o) /\ proper (delete o live) ops
  | MoveNew o src :: ops => live !! o = None /\ exists h, live !! src = Some h /\ proper (<[src := false]> (<[o := h]> live)) ops
  | MoveAssign o src :: ops => live !! o = Some false /\ exists h, live !! src = Some h /\ proper (<[src := false]> (<[o := h]> live)) ops
  | Bind o _ :: ops => live !! o = Some true /\ proper live ops
  | Send o _ p n _ :: ops => live !! o = Some true /\ is_packet p /\ 0 <= n <= Z.of_nat unit_size /\ proper live ops
  | Recv o p _ :: ops => live !! o = Some true /\ is_packet p /\ proper live ops
  | Arrive _ _ :: ops => proper live ops
  end.
(** The system reports no error but "nothing there". *)
Definition no_error (o : op) : Prop := match o with Recv _ _ (Some OTHER) => False | _ => True end.

(** The datagrams that arrived at a socket since it was opened, and what was received from it. *)
Definition arrivals (fd : Z) (es : list event) : list dgram :=
  foldl (fun acc e => match e with
    | Opened fd' => if decide (fd' = fd) then [] else acc
    | Arrived fd' d => if decide (fd' = fd) then acc ++ [d] else acc
    | _ => acc end) [] es.
Definition results (fd : Z) (es : list event) : list (Z * option sockaddr * list Z) :=
  foldl (fun acc e => match e with
    | Opened fd' => if decide (fd' = fd) then [] else acc
    | Got fd' n who p => if decide (fd' = fd) then acc ++ [(n, who, p)] else acc
    | _ => acc end) [] es.
(** A result gives a datagram: its length, its sender, and its bytes in front of the packet. *)
Definition gives (r : Z * option sockaddr * list Z) (d : dgram) : Prop :=
  let '(n, who, p) := r in n = Z.of_nat (length (payload d)) /\ who = Some (from d) /\ take (Z.to_nat n) p = payload d /\ is_packet p.
Definition short (d : dgram) : Prop := (length (payload d) <= unit_size)%nat.

(** The decimal form of a byte and of an address. *)
Definition decimal (n : Z) : list Z :=
  (if decide (100 <= n) then [48 + n / 100] else []) ++ (if decide (10 <= n) then [48 + n / 10 mod 10] else []) ++ [48 + n mod 10].
Definition dotted (a b c d : Z) : list Z := decimal a ++ [46] ++ decimal b ++ [46] ++ decimal c ++ [46] ++ decimal d.
Definition byte (z : Z) : Prop := 0 <= z < 256.
(** [w] writes the byte [n]: one to three digits. *)
Definition writes (w : list Z) (n : Z) : Prop :=
  (1 <= length w <= 3)%nat /\ Forall (fun c => 48 <= c <= 57) w /\ byte n /\
  n = foldl (fun a c => 10 * a + (c - 48)) 0 w.
