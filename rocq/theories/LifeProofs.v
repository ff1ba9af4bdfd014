(** The record of constructions and destructor calls is consistent with [hs],
    the objects that exist and have a destructor to run. *)
From Verif Require Import Life.

Definition own (k : kind) (o : obj) : list nat := if k_md k then [o_id o] else [].
Definition Acc (l : life) (hs : list nat) : Prop :=
  Forall (fun p => p < next l) (made l) /\ NoDup (made l) /\ dead l ++ hs ≡ₚ made l.

Lemma Acc_perm l h h' : h ≡ₚ h' -> Acc l h -> Acc l h'.
Proof. intros P (?&?&H). split_and!; try done. by rewrite <- P, H. Qed.
Lemma Acc_make k v l hs o l' : make k v l = (o, l') -> Acc l hs -> Acc l' (own k o ++ hs).
Proof.
  unfold make, own. intros [= <- <-] (A & N & P). destruct (k_md k) eqn:M; split_and!; cbn [made next dead o_id].
  - apply Forall_app. split; [|by constructor; [lia|]]. eapply Forall_impl; [exact A|]. cbn. lia.
  - apply NoDup_app. split_and!; [done| |apply NoDup_singleton]. intros x E ->%elem_of_list_singleton.
    eapply Forall_forall in A; [|done]. cbn in A. lia.
  - rewrite <- P. solve_Permutation.
  - eapply Forall_impl; [exact A|]. cbn. lia.
  - done.
  - done.
Qed.
Lemma Acc_kill k o l hs : Acc l (own k o ++ hs) -> Acc (kill k o l) hs.
Proof.
  unfold own, kill. intros (A & N & P). unfold Acc. cbn [made next dead]. split_and!; try done. destruct (k_md k); [|done].
  rewrite <- P. solve_Permutation.
Qed.
Lemma make_val k v l o l' : make k v l = (o, l') -> o_val o = v.
Proof. unfold make. by intros [= <- <-]. Qed.
Lemma steal_ok k o l hs : Acc l hs -> exists n o' l', steal k o l = (n, o', l') /\ o_val n = o_val o /\ o_id o' = o_id o /\
  o_val o' = (if k_tm k then o_val o else None) /\ Acc l' (own k n ++ hs).
Proof.
  intros A. unfold steal. destruct (make k (o_val o) l) as [n l'] eqn:M. apply (Acc_make _ _ _ _ _ _ M) in A. apply make_val in M.
  destruct (k_tm k); do 3 eexists; (split; [done|]); done.
Qed.
Lemma own_id k o o' : o_id o = o_id o' -> own k o = own k o'.
Proof. unfold own. by intros ->. Qed.
Lemma Acc_life0 : Acc life0 [].
Proof. split_and!; cbn; [constructor|apply NoDup_nil_2|done]. Qed.
