(** What is asked of files and of the watcher, independently of how they are read and written. *)
From stdpp Require Import gmap.
From Verif Require Import Base FilesModel.
Open Scope Z_scope.

(** The name stands for a file with these bytes, which may be read *)
Definition has (s : os) (p : list Z) (d : list Z) : Prop := exists w m, files s !! c_str p = Some (File (Regular d) true w m).
(** Nothing keeps the program from opening one more file *)
Definition room (s : os) : Prop := (size (fds s) < limit s)%nat.
(** One file has changed at most, and no descriptor stays open *)
Definition only (s s' : os) (p : list Z) : Prop :=
  fds s' = fds s /\ limit s' = limit s /\ now s' = now s /\ forall q, q <> p -> files s' !! q = files s !! q.

(** The last time seen in a history of observations, newest last *)
Fixpoint last_seen (h : list (option Z)) (t0 : Z) : Z :=
  match h with [] => t0 | Some t :: h => last_seen h t | None :: h => last_seen h t0 end.
Close Scope Z_scope.
