(** What is asked of the profiler, from the scopes entered and left alone. *)
From Verif Require Import Base ProfileModel.
Open Scope Z_scope.

(** The scopes open after a history, innermost first, or [None] outside a frame *)
Definition scope (s : option (list nat)) (o : op) : option (list nat) :=
  match o with
  | Begin _ => Some []
  | End _ | Finalize => None
  | Enter l _ => match s with Some ls => Some (l :: ls) | None => None end
  | Exit _ => match s with Some ls => Some (tail ls) | None => None end
  end.
Definition scopes (os : list op) : option (list nat) := foldl scope None os.

(** ** One frame *)
Inductive ev := In (l : nat) (t : Z) | Out (t : Z).
Definition op_of (e : ev) : op := match e with In l t => Enter l t | Out t => Exit t end.
Definition time (e : ev) : Z := match e with In _ t => t | Out t => t end.
(** A visit: the path of locations from the frame to the scope, when it was entered and when left *)
Record visit := Visit { path : list nat; came : Z; left : Z }.
(** The visits of a history, given the scopes open before it, innermost first with the time they were entered *)
Fixpoint visits (st : list (nat * Z)) (h : list ev) : list visit :=
  match h with
  | [] => []
  | In l t :: h => visits ((l, t) :: st) h
  | Out t :: h =>
      match st with
      | (l, t0) :: st' => Visit (rev (map fst st)) t0 t :: visits st' h
      | [] => visits [] h
      end
  end.
(** The scopes open after it; [None] if a scope is left that was not entered *)
Fixpoint open_after (st : list (nat * Z)) (h : list ev) : option (list (nat * Z)) :=
  match h with
  | [] => Some st
  | In l t :: h => open_after ((l, t) :: st) h
  | Out t :: h => match st with _ :: st => open_after st h | [] => None end
  end.
(** Every scope entered is left, in order *)
Definition balanced (h : list ev) : Prop := open_after [] h = Some [].
(** Clock readings *)
Fixpoint rising (t : Z) (h : list ev) : Prop := match h with [] => t < 2 ^ 64 | e :: h => t <= time e /\ rising (time e) h end.
(** A whole frame, which is itself a scope *)
Definition whole (t0 : Z) (h : list ev) (t1 : Z) : list ev := In root_loc t0 :: h ++ [Out t1].

Definition entries (q : list nat) (vs : list visit) : Z := Z.of_nat (length (filter (fun v => path v = q) vs)).
Definition total (vs : list visit) : Z := foldr (fun v s => left v - came v + s) 0 vs.
Definition inclusive (q : list nat) (vs : list visit) : Z := total (filter (fun v => path v = q) vs).
(** Time in scopes directly inside *)
Definition inside (q : list nat) (vs : list visit) : Z := total (filter (fun v => path v <> [] /\ removelast (path v) = q) vs).

(** The path of a node, from the parents *)
Inductive node_path (ns : list node) : nat -> list nat -> Prop :=
| path_root n : ns !! 0%nat = Some n -> node_path ns 0 [loc n]
| path_child i n q : (0 < i)%nat -> ns !! i = Some n -> node_path ns (parent n) q -> node_path ns i (q ++ [loc n]).
Close Scope Z_scope.
