(** What a logged line should look like, told without printf. *)
From Verif Require Import Base FormatModel FormatSpec LogLineModel.
From Coq Require Import Ascii String.
Local Open Scope Z_scope.

(** One entry of the log: [e_text] is the message with its indentation. *)
Record entry := Entry {
  e_level : level; e_time : clock; e_thread : Z; e_file : list Z; e_line : Z; e_text : list Z
}.
Definition time_of_day (tm : clock) : Prop := 0 <= hour tm <= 23 /\ 0 <= minute tm <= 59 /\ 0 <= second tm <= 60.
(** [hh:mm:ss], with brackets. *)
Inductive clock_text (tm : clock) : list Z -> Prop :=
| Clock_text h1 h0 m1 m0 s1 s0 :
    Forall (fun d => 0 <= d <= 9) [h1; h0; m1; m0; s1; s0] ->
    hour tm = 10 * h1 + h0 -> minute tm = 10 * m1 + m0 -> second tm = 10 * s1 + s0 ->
    clock_text tm (txt "[" ++ [48 + h1; 48 + h0] ++ txt ":" ++ [48 + m1; 48 + m0] ++ txt ":" ++ [48 + s1; 48 + s0] ++ txt "]").
Definition level_name (l : level) : list Z :=
  match l with Info => txt "info" | Warn => txt "warn" | Fatal => txt "fatal" end.
(** Warnings and fatal errors are red. *)
Definition colour_on (l : level) : list Z := match l with Info => [] | _ => 27 :: txt "[0;31m" end.
Definition colour_off (l : level) : list Z := match l with Info => [] | _ => 27 :: txt "[0m" end.
Inductive shows (e : entry) : list Z -> Prop :=
| Shows time thread line :
    clock_text (e_time e) time -> number (e_thread e) thread -> number (e_line e) line ->
    shows e (colour_on (e_level e) ++ time ++ txt " [" ++ level_name (e_level e) ++ txt "/" ++ thread ++ txt "] ["
             ++ e_file e ++ txt ":" ++ line ++ txt "]: " ++ e_text e ++ colour_off (e_level e) ++ [10]).

(** The entry a call means: its template filled in. *)
Definition means (c : call) (ps : list piece) : entry :=
  Entry (c_level c) (c_time c) (c_thread c) (c_file c) (c_line c)
    (replicate (Z.to_nat (4 * c_indent c)) 32 ++ filled ps (map text (c_args c))).
(** A call whose template fits its arguments and whose parts are in range; the file has no byte in [bad_file], the
    message none in [bad], and the line stays below 2 GiB. *)
Definition fits (bad_file bad : list Z) (c : call) (ps : list piece) : Prop :=
  pieces (c_fmt c) ps /\ holes ps = Datatypes.length (c_args c) /\
  time_of_day (c_time c) /\ 0 <= c_thread c < 2 ^ 64 /\ 0 <= c_line c < 2 ^ 64 /\ 0 <= c_indent c /\
  (forall b, In b bad_file -> ~ In b (c_file c)) /\ (forall b, In b bad -> ~ In b (filled ps (map text (c_args c)))) /\
  Z.of_nat (Datatypes.length (c_file c)) + 4 * c_indent c
    + Z.of_nat (Datatypes.length (filled ps (map text (c_args c)))) + 200 < 2 ^ 31.
