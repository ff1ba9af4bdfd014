(** C63: type lists and Tuple. *)
From Verif Require Import TypesModel.
Implicit Types (t q : ty) (ts : list ty).

Lemma is_same_true t q : is_same t q = true <-> t = q.
Proof. apply bool_decide_eq_true. Qed.

(** The predicates over packs say what their names say. *)
Theorem one_is_spec q ts : one_is q ts = true <-> q ∈ ts.
Proof.
  induction ts as [|t ts IH]; cbn; [by split; [|intros ?%elem_of_nil]|]. by rewrite orb_true_iff, is_same_true, IH, elem_of_cons.
Qed.
Theorem all_are_spec q ts : all_are q ts = true <-> Forall (eq q) ts.
Proof. induction ts as [|t ts IH]; cbn; [done|]. by rewrite andb_true_iff, is_same_true, IH, Forall_cons. Qed.
Theorem all_same_spec ts : all_same ts = true <-> forall a b, a ∈ ts -> b ∈ ts -> a = b.
Proof.
  induction ts as [|l [|r ts] IH]; [split; [intros _ a b []%elem_of_nil|done]| |].
  - split; [|done]. intros _ a b ->%elem_of_list_singleton ->%elem_of_list_singleton. done.
  - change (all_same (l :: r :: ts)) with (is_same l r && all_same (r :: ts)). rewrite andb_true_iff, is_same_true, IH. split.
    + intros [-> H] a b. rewrite !(elem_of_cons (r :: ts)). pose proof (elem_of_list_here r ts). intros [->|?] [->|?]; auto.
    + intros H. split; [apply H; rewrite !elem_of_cons; auto|]. intros a b ? ?. apply H; by apply elem_of_list_further.
Qed.
Theorem distinct_spec ts : distinct ts = true <-> NoDup ts.
Proof.
  induction ts as [|l [|r ts] IH]; [split; [constructor|done]| |].
  - split; [|done]. intros _. apply NoDup_singleton.
  - change (distinct (l :: r :: ts)) with (negb (one_is l (r :: ts)) && distinct (r :: ts)).
    by rewrite andb_true_iff, IH, negb_true_iff, (NoDup_cons l (r :: ts)), <- one_is_spec, not_true_iff_false.
Qed.

(** Choose is indexing; Index_Of is the first position; they are inverse on distinct lists. *)
Theorem choose_spec i ts : choose i ts = ts !! i.
Proof. induction ts as [|t ts IH] in i |- *; destruct i; cbn; auto. Qed.
Theorem index_of_spec t ts i :
  index_of t ts = Some i <-> ts !! i = Some t /\ forall j, j < i -> ts !! j <> Some t.
Proof.
  induction ts as [|h ts IH] in i |- *; cbn [index_of].
  { split; [done|]. by intros [? _]. }
  destruct (one_is t (h :: ts)) eqn:O.
  - destruct (is_same t h) eqn:E.
    + apply is_same_true in E as <-. split; [intros [= <-]; split; [done|lia]|]. intros [_ H]. destruct i as [|i]; [done|].
      exfalso. by apply (H 0); [lia|].
    + assert (t <> h) by (intros ->; by rewrite (proj2 (is_same_true h h)) in E). destruct i as [|i]; cbn.
      * split; [by destruct (index_of t ts)|]. intros [[= <-] _]. done.
      * destruct (index_of t ts) as [n|] eqn:I; cbn.
        -- split.
           ++ intros [= <-]. destruct (proj1 (IH n) eq_refl) as [A B]. split; [done|]. intros [|j] L; cbn; [congruence|]. apply B. lia.
           ++ intros [A B]. f_equal. f_equal. assert (Some n = Some i) as [= ->]; [|done]. apply IH. split; [done|].
              intros j L. apply (B (S j)). lia.
        -- split; [done|]. intros [A B]. assert (None = Some i) as [=]. apply IH. split; [done|]. intros j L. apply (B (S j)). lia.
  - split; [done|]. intros [A _]. apply elem_of_list_lookup_2, one_is_spec in A. congruence.
Qed.
Theorem index_of_defined t ts : is_Some (index_of t ts) <-> one_is t ts = true.
Proof.
  split.
  - intros [i I]. apply index_of_spec in I as [A _]. by eapply one_is_spec, elem_of_list_lookup_2.
  - intros O. induction ts as [|h ts IH]; [done|]. cbn [index_of]. rewrite O. destruct (is_same t h) eqn:E; [eauto|].
    cbn in O. rewrite E in O. destruct (IH O) as [n ->]. cbn. eauto.
Qed.
Theorem choose_index_of t ts : one_is t ts = true -> exists i, index_of t ts = Some i /\ choose i ts = Some t.
Proof.
  intros O. apply index_of_defined in O as [i I]. exists i. split; [done|]. rewrite choose_spec. by apply index_of_spec.
Qed.
Theorem index_of_choose ts i t : distinct ts = true -> choose i ts = Some t -> index_of t ts = Some i.
Proof.
  rewrite distinct_spec, choose_spec. intros N E. apply index_of_spec. split; [done|]. intros j L E'.
  pose proof (NoDup_lookup _ _ _ _ N E E'). lia.
Qed.

(** Lists of types: every well-formed one is [List<Ts...>] for one pack. *)
Theorem make_bijective l : is_list l = true <-> exists! ts, l = mk_list ts.
Proof.
  split.
  - induction l as [n| |h _ tl IH|n]; cbn; try done.
    + intros _. exists []. split; [done|]. by intros [].
    + intros L. destruct (IH L) as (ts & -> & U). exists (h :: ts). split; [done|]. intros [|a ts'] E; [done|]. cbn in E.
      injection E as -> E. f_equal. by apply U.
  - intros (ts & -> & _). by induction ts.
Qed.
Theorem length_make ts : length_ (mk_list ts) = Some (length ts).
Proof. induction ts as [|t ts IH]; cbn; [done|]. by rewrite IH. Qed.
Theorem all_make p ts : all p (mk_list ts) = Some (forallb p ts).
Proof. induction ts as [|t ts IH]; cbn; [done|]. by rewrite IH. Qed.
Theorem iter_make {S} (f : ty -> S -> S) ts s : iter f (mk_list ts) s = Some (List.fold_left (fun s t => f t s) ts s).
Proof. induction ts as [|t ts IH] in s |- *; cbn; [done|]. by rewrite IH. Qed.
Theorem reverse_make ts : reverse_ (mk_list ts) = Some (mk_list (rev ts)).
Proof.
  unfold reverse_. replace (is_list (mk_list ts)) with true by (by induction ts).
  assert (forall acc, rerverse (mk_list ts) (mk_list acc) = Some (mk_list (rev ts ++ acc))) as H.
  { induction ts as [|t ts IH]; intros acc; cbn; [done|]. rewrite <- app_assoc. apply (IH (t :: acc)). }
  specialize (H []). by rewrite app_nil_r in H.
Qed.
Corollary reverse_involutive l l' : reverse_ l = Some l' -> reverse_ l' = Some l.
Proof.
  intros R. assert (is_list l = true) as L by (unfold reverse_ in R; by destruct (is_list l)).
  apply make_bijective in L as (ts & -> & _). rewrite reverse_make in R. injection R as <-. by rewrite reverse_make, rev_involutive.
Qed.
Lemma enumerated_make n ts : enumerated n ts = mk_list (map Constant (seq n (length ts))).
Proof. induction ts as [|t ts IH] in n |- *; cbn; [done|]. by rewrite IH, Nat.add_1_r. Qed.
Theorem enumerate_spec ts : enumerate ts = mk_list (map Constant (seq 0 (length ts))).
Proof. apply enumerated_make. Qed.

Section tuple.
  Context {V : Type}.
  Implicit Types (vs : list V).
  (** [get<I>] is the I-th constructor argument, for every arity. *)
  Theorem tuple_get vs i : t_get i (t_make vs) = vs !! i.
  Proof. induction vs as [|v vs IH] in i |- *; destruct i; cbn; auto. Qed.
  Theorem tuple_length vs : t_length (t_make vs) = length vs.
  Proof. induction vs; cbn; auto. Qed.
  Theorem tuple_set vs i v : i < length vs -> t_set i v (t_make vs) = Some (t_make (<[i := v]> vs)).
  Proof.
    induction vs as [|w vs IH] in i |- *; cbn; [lia|]. destruct i as [|i]; [done|]. intros L. cbn. by rewrite IH by lia.
  Qed.
  (** [get] returns a reference: assigning through it changes that element only. *)
  Theorem tuple_set_get vs i j v : i < length vs -> exists u, t_set i v (t_make vs) = Some u /\
    t_get j u = if decide (i = j) then Some v else vs !! j.
  Proof.
    intros L. rewrite tuple_set by done. eexists. split; [done|]. rewrite tuple_get. case_decide as E; [subst j|].
    - by apply list_lookup_insert.
    - by apply list_lookup_insert_ne.
  Qed.
  Theorem tuple_clone f vs : t_clone f (t_make vs) = t_make (map f vs).
  Proof. induction vs as [|v vs IH]; cbn; [done|]. by rewrite IH. Qed.
  (** [invoke] passes every element, in order. *)
  Theorem tuple_invoke vs : t_invoke (t_make vs) = Some vs.
  Proof.
    unfold t_invoke, index_sequence. rewrite tuple_length. apply mapM_Some, Forall2_same_length_lookup_2; [apply seq_length|].
    intros i x y [-> Li]%lookup_seq E. by rewrite tuple_get.
  Qed.

  (** Formatting: the elements separated by ", ", in "Tuple{...}"; measured exactly. *)
  Context (measure : V -> nat) (write : V -> list nat).
  Fixpoint join (sep : list nat) (ls : list (list nat)) : list nat :=
    match ls with [] => [] | [l] => l | l :: ls => l ++ sep ++ join sep ls end.
  Theorem tuple_write o c e vs : t_write write o c e (t_make vs) = Some (o ++ join c (map write vs) ++ e).
  Proof.
    unfold t_write. rewrite tuple_length, enumerate_spec, repeat_length, iter_make. cbn [option_map]. f_equal. rewrite (app_assoc o). f_equal.
    set (g := fun (s : list nat) (t : ty) => _).
    assert (forall (k : nat) (pre suf : list V) out, vs = pre ++ suf -> k = length pre ->
      fold_left g (map Constant (seq k (length suf))) out = out ++ join c (map write suf)) as H.
    { intros k pre suf. induction suf as [|v suf IH] in k, pre |- *; intros out -> ->; cbn [length seq map fold_left]; [by rewrite app_nil_r|].
      specialize (IH (S (length pre)) (pre ++ [v])). rewrite IH; [|by rewrite <- app_assoc|rewrite app_length; cbn; lia].
      unfold g at 1. cbv beta iota. rewrite tuple_get, lookup_app_r, Nat.sub_diag by lia. change ((v :: suf) !! 0) with (Some v). cbv beta iota.
      destruct suf as [|w suf].
      - rewrite (proj2 (Nat.ltb_ge _ _)) by (rewrite app_length; cbn; lia). cbn. by rewrite app_nil_r.
      - rewrite (proj2 (Nat.ltb_lt _ _)) by (rewrite app_length; cbn; lia). cbn. by rewrite <- !app_assoc. }
    by apply (H 0 [] vs).
  Qed.
  Theorem tuple_measure o c e vs : length o = 6 -> length c = 2 -> length e = 1 -> (forall v, measure v = length (write v)) ->
    exists out, t_write write o c e (t_make vs) = Some out /\ t_measure measure (t_make vs) = Some (length out).
  Proof.
    intros Lo Lc Le M. rewrite tuple_write. eexists. split; [done|]. unfold t_measure.
    rewrite tuple_length, enumerate_spec, repeat_length, iter_make. cbn [option_map]. f_equal.
    set (g := fun (s : nat) (t : ty) => _).
    assert (forall (k : nat) (pre suf : list V) n, vs = pre ++ suf -> k = length pre ->
      fold_left g (map Constant (seq k (length suf))) n = n + foldr plus 0 (map (fun v => length (write v)) suf)) as H.
    { intros k pre suf. induction suf as [|v suf IH] in k, pre |- *; intros n -> ->; cbn [length seq map fold_left]; [cbn; lia|].
      specialize (IH (S (length pre)) (pre ++ [v])). rewrite IH; [|by rewrite <- app_assoc|rewrite app_length; cbn; lia].
      unfold g at 1. cbv beta iota. rewrite tuple_get, lookup_app_r, Nat.sub_diag by lia. change ((v :: suf) !! 0) with (Some v). cbv beta iota. rewrite M. cbn. lia. }
    rewrite (H 0 [] vs) by done. rewrite !app_length, Lo, Le. clear H g.
    assert (length (join c (map write vs)) = foldr plus 0 (map (fun v => length (write v)) vs) + 2 * (length vs - 1)) as ->.
    { induction vs as [|v [|w vs] IH]; cbn [map length foldr]; [done|cbn; lia|].
      cbn [map foldr length] in IH. change (join c (write v :: write w :: map write vs)) with (write v ++ c ++ join c (write w :: map write vs)). rewrite !app_length, Lc, IH. lia. }
    destruct (1 <? length vs) eqn:L; [apply Nat.ltb_lt in L; lia|apply Nat.ltb_ge in L]. destruct vs as [|? [|]]; cbn in *; lia.
  Qed.
End tuple.

Example types_example :
  let ts := map Name [4; 7; 9; 2] in
  distinct ts = true /\ index_of (Name 9) ts = Some 2 /\ choose 2 ts = Some (Name 9) /\ one_is (Name 3) ts = false /\
  reverse_ (mk_list ts) = Some (mk_list (map Name [2; 9; 7; 4])) /\ all_same ts = false /\ distinct (Name 7 :: ts) = false.
Proof. by vm_compute. Qed.
Example tuple_example : t_get 3 (t_make [5; 6; 7; 8; 9]) = Some 8 /\ t_invoke (t_make [5; 6; 7]) = Some [5; 6; 7] /\
  t_write (fun v => [v]) [0; 0; 0; 0; 0; 0] [1; 1] [2] (t_make [5; 6; 7]) = Some [0; 0; 0; 0; 0; 0; 5; 1; 1; 6; 1; 1; 7; 2] /\
  t_measure (fun v => 1) (t_make [5; 6; 7]) = Some 14.
Proof. by vm_compute. Qed.

Print Assumptions one_is_spec.
Print Assumptions all_are_spec.
Print Assumptions all_same_spec.
Print Assumptions distinct_spec.
Print Assumptions choose_spec.
Print Assumptions index_of_spec.
Print Assumptions index_of_defined.
Print Assumptions choose_index_of.
Print Assumptions index_of_choose.
Print Assumptions make_bijective.
Print Assumptions length_make.
Print Assumptions all_make.
Print Assumptions iter_make.
Print Assumptions reverse_make.
Print Assumptions reverse_involutive.
Print Assumptions enumerate_spec.
Print Assumptions tuple_get.
Print Assumptions tuple_length.
Print Assumptions tuple_set_get.
Print Assumptions tuple_clone.
Print Assumptions tuple_invoke.
Print Assumptions tuple_write.
Print Assumptions tuple_measure.
