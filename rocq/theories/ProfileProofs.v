From Verif Require Import Base Word ProfileModel ProfileSpec.
Open Scope Z_scope.

Lemma alter_Some {A} (g : A -> A) (l : list A) (i j : nat) (y : A) :
  alter g i l !! j = Some y <-> (i = j /\ exists x, l !! j = Some x /\ y = g x) \/ (i <> j /\ l !! j = Some y).
Proof.
  destruct (decide (i = j)) as [->|D].
  - rewrite list_lookup_alter, fmap_Some. naive_solver.
  - rewrite list_lookup_alter_ne by done. naive_solver.
Qed.

(** ** The tree of a frame; [ps] are the paths of its nodes *)
Record tree (ns : list node) (ps : list (list nat)) : Prop := {
  w_len : length ps = length ns;
  w_root : exists n, ns !! 0%nat = Some n /\ parent n = 0%nat /\ ps !! 0%nat = Some [loc n];
  w_nodup : NoDup ps;
  w_par : forall i n, (0 < i)%nat -> ns !! i = Some n -> (parent n < i)%nat /\ exists q, ps !! parent n = Some q /\ ps !! i = Some (q ++ [loc n]);
  w_kids : forall i n q, ns !! i = Some n -> ps !! i = Some q -> NoDup (children n) /\ forall c, c ∈ children n <-> exists l, ps !! c = Some (q ++ [l])
}.
Definition same (n m : node) : Prop := loc n = loc m /\ parent n = parent m /\ children n = children m.
Lemma tree_ne ns ps i q : tree ns ps -> ps !! i = Some q -> q <> [].
Proof.
  intros T E. destruct i as [|i].
  - destruct (w_root _ _ T) as (n & _ & _ & E'). rewrite E in E'. by injection E' as ->.
  - assert (S i < length ns)%nat as L by (rewrite <-(w_len _ _ T); by eapply lookup_lt_Some).
    apply lookup_lt_is_Some in L as [n En]. destruct (w_par _ _ T (S i) n ltac:(lia) En) as (_ & r & _ & E'). rewrite E in E'. injection E' as ->. by destruct r.
Qed.
Lemma tree_alter ns ps g i : tree ns ps -> (forall n, same (g n) n) -> tree (alter g i ns) ps.
Proof.
  intros T G. assert (forall j n, alter g i ns !! j = Some n -> exists m, ns !! j = Some m /\ same n m) as L.
  { intros j n. rewrite alter_Some. intros [(-> & m & -> & ->)|[_ ->]]; [exists m; by split|]. exists n. by repeat split. }
  split.
  - by rewrite alter_length, (w_len _ _ T).
  - destruct (w_root _ _ T) as (n & En & P & Ep). destruct (decide (0 = i)%nat) as [<-|D].
    + exists (g n). rewrite list_lookup_alter, En. destruct (G n) as (-> & -> & _). done.
    + exists n. by rewrite list_lookup_alter_ne.
  - apply T.
  - intros j n H E. destruct (L j n E) as (m & Em & -> & -> & _). by apply (w_par _ _ T).
  - intros j n q E Eq. destruct (L j n E) as (m & Em & _ & _ & ->). by apply (w_kids _ _ T j m q).
Qed.
Lemma tree_child_lt ns ps i n c : tree ns ps -> ns !! i = Some n -> c ∈ children n -> (i < c < length ns)%nat.
Proof.
  intros T En Hc. assert (exists q, ps !! i = Some q) as [q Eq]. { apply lookup_lt_is_Some. rewrite (w_len _ _ T). by eapply lookup_lt_Some. }
  destruct (w_kids _ _ T _ _ _ En Eq) as [_ K]. destruct (proj1 (K c) Hc) as [l Ec].
  assert (c < length ns)%nat as Lc. { rewrite <-(w_len _ _ T). by eapply lookup_lt_Some. }
  split; [|done]. apply lookup_lt_is_Some in Lc as [m Em]. destruct c as [|c].
  - exfalso. destruct (w_root _ _ T) as (r & _ & _ & E). rewrite Ec in E. injection E as E. destruct q as [|x q]; [by destruct (tree_ne _ _ _ _ T Eq)|]. by destruct q.
  - destruct (w_par _ _ T (S c) m ltac:(lia) Em) as (P & q' & Eq' & Ec'). rewrite Ec in Ec'. injection Ec' as Ec'. apply app_inj_tail in Ec' as [-> _].
    pose proof (NoDup_lookup _ _ _ _ (w_nodup _ _ T) Eq Eq'). lia.
Qed.
Lemma tree_path ns ps i q : tree ns ps -> ps !! i = Some q <-> node_path ns i q.
Proof.
  intros T. split.
  - revert q. induction (lt_wf i) as [i _ IH]. intros q E. assert (i < length ns)%nat as L by (rewrite <-(w_len _ _ T); by eapply lookup_lt_Some).
    apply lookup_lt_is_Some in L as [n En]. destruct i as [|i].
    + destruct (w_root _ _ T) as (r & Er & _ & E'). rewrite E in E'. injection E' as ->. by constructor.
    + destruct (w_par _ _ T (S i) n ltac:(lia) En) as (P & q' & Eq' & E'). rewrite E in E'. injection E' as ->. constructor; [lia|done|]. by apply IH.
  - induction 1 as [n En|i n q Hi En _ IH].
    + destruct (w_root _ _ T) as (r & Er & _ & E'). rewrite En in Er. injection Er as ->. done.
    + destruct (w_par _ _ T i n Hi En) as (_ & q' & Eq' & E'). rewrite IH in Eq'. injection Eq' as ->. done.
Qed.

Lemma find_child_spec ns ps i n q l : tree ns ps -> ns !! i = Some n -> ps !! i = Some q ->
  exists r, find_child ns l (children n) None = Ok r /\ match r with Some c => ps !! c = Some (q ++ [l]) | None => q ++ [l] ∉ ps end.
Proof.
  intros T En Eq. destruct (w_kids _ _ T _ _ _ En Eq) as [_ K].
  assert (forall cs found, (forall c, c ∈ cs -> exists x, ps !! c = Some (q ++ [x])) -> (forall c, found = Some c -> ps !! c = Some (q ++ [l])) ->
    exists r, find_child ns l cs found = Ok r /\ match r with Some c => ps !! c = Some (q ++ [l]) | None => found = None /\ forall c, c ∈ cs -> ps !! c <> Some (q ++ [l]) end) as F.
  { induction cs as [|c cs IH]; intros found H1 H2; cbn.
    - exists found. split; [done|]. destruct found as [c|]; [by apply H2|]. split; [done|]. intros c Hc. by apply elem_of_nil in Hc.
    - destruct (H1 c) as [x Ex]; [constructor|]. assert (c < length ns)%nat as L by (rewrite <-(w_len _ _ T); by eapply lookup_lt_Some).
      apply lookup_lt_is_Some in L as [m Em]. unfold at_. rewrite Em. cbn.
      assert (loc m = x) as Lx.
      { destruct c as [|c].
        - destruct (w_root _ _ T) as (r & Er & _ & E'). rewrite Em in Er. injection Er as ->. rewrite Ex in E'. injection E' as E'. change [loc r] with ([] ++ [loc r]) in E'. apply app_inj_tail in E' as [_ ->]. done.
        - destruct (w_par _ _ T (S c) m ltac:(lia) Em) as (_ & q' & _ & E'). rewrite Ex in E'. injection E' as E'. by apply app_inj_tail in E' as [_ ->]. }
      case_bool_decide as D.
      + destruct (IH (Some c)) as (r & -> & R).
        * intros c' Hc. apply H1. by constructor.
        * intros c' [= <-]. by rewrite Ex, <-D, Lx.
        * exists r. split; [done|]. destruct r; [done|]. by destruct R.
      + destruct (IH found) as (r & -> & R); [intros c' Hc; apply H1; by constructor|done|]. exists r. split; [done|]. destruct r; [done|]. destruct R as [R1 R2]. split; [done|].
        intros c' Hc. apply elem_of_cons in Hc as [->|Hc]; [|by apply R2]. rewrite Ex. intros [= E]. apply app_inj_tail in E as [_ E]. congruence. }
  destruct (F (children n) None) as (r & Er & R); [intros c Hc; by apply K|done|]. exists r. split; [done|]. destruct r as [c|]; [done|].
  destruct R as [_ R]. intros Hin. apply elem_of_list_lookup in Hin as [c Ec]. apply (R c); [|done]. apply K. by eexists.
Qed.

Lemma tree_add ns ps i n q l t : tree ns ps -> ns !! i = Some n -> ps !! i = Some q -> q ++ [l] ∉ ps ->
  tree (alter (with_children (fun cs => cs ++ [length ns])) i ns ++ [make l i t]) (ps ++ [q ++ [l]]).
Proof.
  intros T En Eq N. set (ns1 := alter _ i ns). assert (length ns1 = length ns) as L1 by apply alter_length.
  assert (forall j m, ns1 !! j = Some m -> exists m0, ns !! j = Some m0 /\ loc m = loc m0 /\ parent m = parent m0 /\ children m = if decide (j = i) then children m0 ++ [length ns] else children m0) as L.
  { intros j m. unfold ns1. rewrite alter_Some. intros [(-> & m0 & -> & ->)|[D ->]]; [exists m0; split_and!; try done; by rewrite decide_True|]. exists m. rewrite decide_False by done. done. }
  assert (length ps = length ns) as Lp by apply T.
  split.
  - rewrite !app_length, L1, Lp. done.
  - destruct (w_root _ _ T) as (r & Er & P & Ep). assert (0 < length ns)%nat by (by eapply lookup_lt_Some).
    destruct (ns1 !! 0%nat) as [r1|] eqn:E1; [|apply lookup_ge_None in E1; lia].
    destruct (L _ _ E1) as (r0 & E0 & A & B & _). rewrite Er in E0. injection E0 as <-. exists r1. rewrite lookup_app_l by lia. rewrite lookup_app_l by lia. rewrite E1, A, B. done.
  - apply NoDup_app. split_and!; [apply T| |apply NoDup_singleton]. intros x Hx Hin. apply elem_of_list_singleton in Hin as ->. done.
  - intros j m Hj Ej. apply lookup_app_Some in Ej as [Ej|[Hl Ej]].
    + destruct (L _ _ Ej) as (m0 & E0 & A & B & _). destruct (w_par _ _ T j m0 Hj E0) as (P & q' & Eq' & Ej'). rewrite A, B. split; [done|]. exists q'.
      split; (eapply lookup_app_l_Some; done).
    + destruct (j - length ns1)%nat as [|k] eqn:K; [|done]. injection Ej as <-. cbn. assert (j = length ns) as -> by lia. assert (i < length ns)%nat by (by eapply lookup_lt_Some).
      split; [done|]. exists q. split; [by apply lookup_app_l_Some|]. rewrite lookup_app_r by lia. by rewrite Lp, Nat.sub_diag.
  - intros j m q' Ej Eq'. apply lookup_app_Some in Ej as [Ej|[Hl Ej]].
    + destruct (L _ _ Ej) as (m0 & E0 & A & B & C). assert (j < length ps)%nat as Lj by (rewrite Lp, <-L1; by eapply lookup_lt_Some). rewrite lookup_app_l in Eq' by done.
      destruct (w_kids _ _ T j m0 q' E0 Eq') as [K1 K2]. rewrite C. case_decide as D.
      * subst j. rewrite Eq in Eq'. injection Eq' as <-. split.
        -- apply NoDup_app. split_and!; [done| |apply NoDup_singleton]. intros x Hx Hin. apply elem_of_list_singleton in Hin as ->. destruct (proj1 (K2 _) Hx) as [l1 Hx1]; clear Hx; rename Hx1 into Hx. apply lookup_lt_Some in Hx. lia.
        -- intros c. rewrite elem_of_app, K2, elem_of_list_singleton. split.
           ++ intros [[l' H]| ->]; [exists l'; by apply lookup_app_l_Some|]. exists l. rewrite lookup_app_r by lia. by rewrite Lp, Nat.sub_diag.
           ++ intros [l' H]. apply lookup_app_Some in H as [H|[H1 H2]]; [left; by eexists|]. right. destruct (c - length ps)%nat eqn:K; [lia|done].
      * split; [done|]. intros c. rewrite K2. split.
        -- intros [l' H]. exists l'. by apply lookup_app_l_Some.
        -- intros [l' H]. apply lookup_app_Some in H as [H|[H1 H2]]; [by eexists|]. exfalso. destruct (c - length ps)%nat eqn:K; [|done]. injection H2 as H2. apply app_inj_tail in H2 as [-> _].
           apply D. by eapply NoDup_lookup; [apply T|..].
    + destruct (j - length ns1)%nat as [|k] eqn:K; [|done]. injection Ej as <-. assert (j = length ps) as -> by lia. rewrite lookup_app_r, Nat.sub_diag in Eq' by lia. injection Eq' as <-. cbn [children make]. split; [constructor|].
      intros c. split; [intros H; by apply elem_of_nil in H|]. intros [l' H]. exfalso. apply lookup_app_Some in H as [H|[H1 H2]].
      * (* a path longer than one not in the tree: its parent is in the tree *)
        assert (c < length ns)%nat as Lc by (rewrite <-Lp; by eapply lookup_lt_Some). apply lookup_lt_is_Some in Lc as [m Em]. destruct c as [|c].
        -- destruct (w_root _ _ T) as (r & _ & _ & E'). rewrite H in E'. injection E' as E'. apply (f_equal length) in E'. rewrite !app_length in E'. cbn in E'. lia.
        -- destruct (w_par _ _ T (S c) m ltac:(lia) Em) as (_ & q2 & E2 & E'). rewrite H in E'. injection E' as E'. apply app_inj_tail in E' as [<- _]. apply N. by eapply elem_of_list_lookup_2.
      * destruct (c - length ps)%nat eqn:K'; [|done]. injection H2 as H2. apply (f_equal length) in H2. rewrite !app_length in H2. cbn in H2. lia.
Qed.

(** ** A frame in progress; [st] are the locations of the scopes open, innermost first, the frame itself last *)
Definition prog (f : frame) (ps : list (list nat)) (st : list nat) : Prop := tree (nodes f) ps /\ ps !! current_node f = Some (rev st).

Lemma prog_begin t : prog (Frame 0 [make root_loc 0 t]) [[root_loc]] [root_loc].
Proof.
  split; [|done]. split; cbn; try done.
  - by eexists.
  - apply NoDup_singleton.
  - intros [|i] n Hi En; [lia|]. by destruct i.
  - intros [|i] n q En Eq; [|by destruct i]. injection En as <-. injection Eq as <-. cbn. split; [constructor|]. intros c. split; [intros H; by apply elem_of_nil in H|].
    intros [l H]. destruct c as [|c]; [|by destruct c]. done.
Qed.
Lemma prog_enter f ps st l t : prog f ps st -> exists f', frame_enter l t f = Ok f' /\
  ((rev st ++ [l] ∈ ps /\ prog f' ps (l :: st)) \/ (rev st ++ [l] ∉ ps /\ prog f' (ps ++ [rev st ++ [l]]) (l :: st))).
Proof.
  intros [T C]. unfold frame_enter. assert (exists n, nodes f !! current_node f = Some n) as [n En]. { apply lookup_lt_is_Some. rewrite <-(w_len _ _ T). by eapply lookup_lt_Some. }
  unfold at_. rewrite En. cbn [mbind res_bind]. destruct (find_child_spec _ _ _ _ _ l T En C) as (r & -> & R). cbn [mbind res_bind]. destruct r as [c|].
  - eexists. split; [done|]. left. split; [by eapply elem_of_list_lookup_2|]. split; [apply tree_alter; [done|]; by repeat split|done].
  - eexists. split; [done|]. right. split; [done|]. split; [by apply (tree_add _ _ _ n)|]. cbn. rewrite lookup_app_r by (rewrite (w_len _ _ T); lia). by rewrite (w_len _ _ T), Nat.sub_diag.
Qed.
Lemma prog_exit f ps st t : prog f ps st -> exists f' n, frame_exit t f = Ok f' /\ nodes f !! current_node f = Some n /\ current_node f' = parent n /\
  match st with
  | [] => False
  | [_] => prog f' ps st
  | _ :: st => prog f' ps st
  end.
Proof.
  intros [T C]. unfold frame_exit. assert (exists n, nodes f !! current_node f = Some n) as [n En]. { apply lookup_lt_is_Some. rewrite <-(w_len _ _ T). by eapply lookup_lt_Some. }
  unfold at_. rewrite En. cbn [mbind res_bind]. eexists _, n. split_and!; [done|done|done|].
  assert (tree (alter (λ n0 : node, Node (loc n0) (begin_ n0) t (self_time n0) (wrap 64 (heir_time n0 + (t - begin_ n0))) (calls n0) (parent n0) (children n0)) (current_node f) (nodes f)) ps) as T'.
  { apply tree_alter; [done|]. by repeat split. }
  destruct st as [|l [|l' st]]; [by destruct (tree_ne _ _ _ _ T C)| |].
  - split; [done|]. cbn [current_node]. destruct (current_node f) as [|i] eqn:Ec.
    + destruct (w_root _ _ T) as (r & Er & P & Ep). rewrite En in Er. injection Er as ->. rewrite P. done.
    + exfalso. destruct (w_par _ _ T (S i) n ltac:(lia) En) as (_ & q & Eq & E'). rewrite C in E'. injection E' as E'. change [l] with ([] ++ [l]) in E'. apply app_inj_tail in E' as [<- _]. by destruct (tree_ne _ _ _ _ T Eq).
  - split; [done|]. cbn [current_node]. destruct (current_node f) as [|i] eqn:Ec.
    + exfalso. destruct (w_root _ _ T) as (r & Er & P & Ep). rewrite C in Ep. injection Ep as Ep. apply (f_equal length) in Ep. rewrite app_length, app_length in Ep. cbn in Ep. lia.
    + destruct (w_par _ _ T (S i) n ltac:(lia) En) as (_ & q & Eq & E'). rewrite C in E'. injection E' as E'. change (rev (l :: l' :: st)) with (rev (l' :: st) ++ [l]) in E'. apply app_inj_tail in E' as [<- _]. done.
Qed.
Lemma prog_root f ps st : prog f ps st -> current_node f = 0%nat <-> exists l, st = [l].
Proof.
  intros [T C]. destruct (w_root _ _ T) as (r & Er & P & Ep). split.
  - intros E. rewrite E in C. rewrite C in Ep. injection Ep as Ep. exists (loc r). apply (f_equal (@rev nat)) in Ep. rewrite rev_involutive in Ep. done.
  - intros [l ->]. cbn in C. destruct (current_node f) as [|i] eqn:Ec; [done|]. exfalso.
    assert (S i < length (nodes f))%nat as L by (rewrite <-(w_len _ _ T); by eapply lookup_lt_Some). apply lookup_lt_is_Some in L as [n En].
    destruct (w_par _ _ T (S i) n ltac:(lia) En) as (_ & q & Eq & E'). rewrite C in E'. injection E' as E'. change [l] with ([] ++ [l]) in E'. apply app_inj_tail in E' as [<- _]. by destruct (tree_ne _ _ _ _ T Eq).
Qed.

(** ** Self times *)
Definition set_self (x : Z) (n : node) : node := Node (loc n) (begin_ n) (end_ n) x (heir_time n) (calls n) (parent n) (children n).
Definition heirs (ns : list node) (cs : list nat) : Z := foldr (fun c s => match ns !! c with Some m => heir_time m + s | None => s end) 0 cs.
Definition own (ns : list node) (n : node) : Z := wrap 64 (heir_time n - heirs ns (children n)).
(** [ns'] is [ns] with some self times set, to the right value *)
Definition upto (ns ns' : list node) : Prop := forall j, match ns !! j with
  | Some n => exists x, ns' !! j = Some (set_self x n) /\ (x = self_time n \/ x = own ns n)
  | None => ns' !! j = None end.
Definition fixed (ns ns' : list node) (j : nat) : Prop := exists n, ns !! j = Some n /\ ns' !! j = Some (set_self (own ns n) n).
Lemma set_self_id n : set_self (self_time n) n = n.
Proof. by destruct n. Qed.
Lemma upto_refl ns : upto ns ns.
Proof. intros j. destruct (ns !! j) as [n|] eqn:E; [|done]. exists (self_time n). rewrite set_self_id. auto. Qed.
Lemma upto_heirs ns ns' cs : upto ns ns' -> heirs ns' cs = heirs ns cs.
Proof. intros U. unfold heirs. induction cs as [|c cs IH]; [done|]. cbn. rewrite IH. specialize (U c). destruct (ns !! c) as [n|]; [|by rewrite U]. destruct U as (x & -> & _). done. Qed.
Lemma upto_own ns ns' n x : upto ns ns' -> own ns' (set_self x n) = own ns n.
Proof. intros U. unfold own. cbn [set_self heir_time children]. by rewrite (upto_heirs ns ns'). Qed.
Lemma upto_trans ns ns1 ns2 : upto ns ns1 -> upto ns1 ns2 -> upto ns ns2.
Proof.
  intros U V j. pose proof (U j) as Uj. pose proof (V j) as Vj. destruct (ns !! j) as [n|]; [|by rewrite Uj in Vj]. destruct Uj as (x & Ex & Hx). rewrite Ex in Vj.
  destruct Vj as (y & Ey & Hy). exists y. split; [done|]. rewrite (upto_own ns ns1) in Hy by done. cbn in Hy. naive_solver.
Qed.
Lemma upto_fixed ns ns1 ns2 j : upto ns ns1 -> upto ns1 ns2 -> fixed ns ns1 j \/ fixed ns1 ns2 j -> fixed ns ns2 j.
Proof.
  intros U V [(n & En & E1)|(n & E1 & E2)].
  - exists n. split; [done|]. specialize (V j). rewrite E1 in V. destruct V as (y & Ey & Hy). rewrite (upto_own ns ns1) in Hy by done. cbn in Hy. rewrite Ey. by destruct Hy as [-> | ->].
  - pose proof (U j) as Uj. destruct (ns !! j) as [m|] eqn:Em; [|congruence]. destruct Uj as (x & Ex & Hx). rewrite E1 in Ex. injection Ex as ->. exists m. split; [by rewrite Em|]. rewrite E2, (upto_own ns ns1) by done. done.
Qed.
(** Reached from a node through children *)
Inductive below (ns : list node) : nat -> nat -> Prop :=
| below_refl i : below ns i i
| below_step i n c j : ns !! i = Some n -> c ∈ children n -> below ns c j -> below ns i j.
Lemma upto_below ns ns' i j : upto ns ns' -> below ns i j -> below ns' i j.
Proof.
  intros U. induction 1 as [|i n c j En Hc _ IH]; [constructor|]. pose proof (U i) as Ui. rewrite En in Ui. destruct Ui as (x & Ex & _). by eapply below_step; [exact Ex|exact Hc|].
Qed.
Lemma upto_set ns i n : ns !! i = Some n -> let ns' := alter (set_self (own ns n)) i ns in upto ns ns' /\ fixed ns ns' i.
Proof.
  intros En. cbn. split.
  - intros j. destruct (decide (j = i)) as [->|D]; [rewrite En, list_lookup_alter, En; cbn; eexists; split; [done|by right]|]. rewrite list_lookup_alter_ne by done. apply upto_refl.
  - exists n. rewrite list_lookup_alter, En. done.
Qed.
Lemma wrap_add_l a b : wrap 64 (wrap 64 a + b) = wrap 64 (a + b).
Proof. unfold wrap. apply Zplus_mod_idemp_l. Qed.
Lemma wrap_sub_r a b : wrap 64 (a - wrap 64 b) = wrap 64 (a - b).
Proof. unfold wrap. apply Zminus_mod_idemp_r. Qed.

Lemma self_times_ok fuel : forall ns idx, (idx < length ns)%nat -> (length ns - idx <= fuel)%nat ->
  (forall i n c, ns !! i = Some n -> c ∈ children n -> (i < c < length ns)%nat) ->
  exists ns', compute_self_times fuel ns idx = Ok ns' /\ upto ns ns' /\ forall j, below ns idx j -> fixed ns ns' j.
Proof.
  induction fuel as [|fuel IH]; intros ns idx Hi Hf Hc; [lia|]. cbn [compute_self_times]. apply lookup_lt_is_Some in Hi as [n En]. assert (at_ ns idx = Ok n) as -> by (unfold at_; by rewrite En). cbn [mbind res_bind].
  set (each := fix each (cs : list nat) (ns : list node) (child_time : Z) : res (list node * Z) :=
        match cs with
        | [] => Ok (ns, child_time)
        | c :: cs => ns ← compute_self_times fuel ns c; m ← at_ ns c; each cs ns (wrap 64 (child_time + heir_time m))
        end).
  assert (forall cs ns1 ct, upto ns ns1 -> (forall c, c ∈ cs -> (idx < c < length ns)%nat) ->
    exists ns2, each cs ns1 (wrap 64 ct) = Ok (ns2, wrap 64 (ct + heirs ns cs)) /\ upto ns1 ns2 /\ forall c j, c ∈ cs -> below ns c j -> fixed ns ns2 j) as E.
  { induction cs as [|c cs IHc]; intros ns1 ct U Hcs.
    - exists ns1. cbn. rewrite Z.add_0_r. split_and!; [done|apply upto_refl|]. intros c j H. by apply elem_of_nil in H.
    - destruct (Hcs c) as [H1 H2]; [constructor|].
      assert (length ns1 = length ns) as L1.
      { apply Nat.le_antisymm.
        - apply Nat.nlt_ge. intros L. apply lookup_lt_is_Some in L as [m Em]. pose proof (U (length ns)) as Uj. rewrite lookup_ge_None_2 in Uj by lia. congruence.
        - apply Nat.nlt_ge. intros L. assert (is_Some (ns !! length ns1)) as [m Em] by by apply lookup_lt_is_Some. pose proof (U (length ns1)) as Uj. rewrite Em in Uj. destruct Uj as (x & Ex & _). apply lookup_lt_Some in Ex. lia. }
      assert (forall i n0 c0, ns1 !! i = Some n0 -> c0 ∈ children n0 -> (i < c0 < length ns1)%nat) as Hc1.
      { intros i n0 c0 E0 Hc0. rewrite L1. pose proof (U i) as Ui. destruct (ns !! i) as [m|] eqn:Em; [|congruence]. destruct Ui as (x & Ex & _). rewrite E0 in Ex. injection Ex as ->. by eapply Hc. }
      destruct (IH ns1 c) as (ns2 & E2 & U2 & F2); [lia|lia|done|]. change (each (c :: cs) ns1 (wrap 64 ct)) with (ns ← compute_self_times fuel ns1 c; m ← at_ ns c; each cs ns (wrap 64 (wrap 64 ct + heir_time m))).
      rewrite E2. cbn [mbind res_bind]. assert (exists m x, ns !! c = Some m /\ ns2 !! c = Some (set_self x m)) as (m & x & Em & Em2).
      { apply lookup_lt_is_Some in H2 as [m Em]. pose proof (upto_trans _ _ _ U U2 c) as Uc. rewrite Em in Uc. destruct Uc as (x & Ex & _). by exists m, x. }
      unfold at_. rewrite Em2. cbn [mbind res_bind heir_time set_self]. rewrite wrap_add_l.
      destruct (IHc ns2 (ct + heir_time m)) as (ns3 & E3 & U3 & F3); [by eapply upto_trans|intros; apply Hcs; by constructor|].
      exists ns3. rewrite E3. split_and!.
      + cbn [heirs foldr]. rewrite Em. do 3 f_equal. unfold heirs. lia.
      + by eapply upto_trans.
      + intros c' j Hc' Hb. apply elem_of_cons in Hc' as [->|Hc']; [|by apply (F3 c')].
        apply (upto_fixed ns ns2 ns3); [by eapply upto_trans|done|]. left. apply (upto_fixed ns ns1 ns2); [done|done|]. right. apply F2. by eapply upto_below. }
  destruct (E (children n) ns 0) as (ns2 & E2 & U2 & F2); [apply upto_refl|intros c H; by eapply Hc|]. change (wrap 64 0) with 0 in E2. rewrite E2. cbn [mbind res_bind].
  pose proof (U2 idx) as Ui. rewrite En in Ui. destruct Ui as (x & Ex & Hx). eexists. split; [done|].
  match goal with |- upto ns (alter ?g idx ns2) /\ _ => assert (alter g idx ns2 = alter (set_self (own ns2 (set_self x n))) idx ns2) as -> end.
  { apply list_eq. intros j. destruct (decide (j = idx)) as [->|D]; [|by rewrite !list_lookup_alter_ne]. rewrite !list_lookup_alter, Ex. cbn. rewrite (upto_own ns ns2) by done. unfold own, set_self; cbn [heir_time children loc begin_ end_ calls parent].
    rewrite Z.add_0_l, wrap_sub_r. done. }
  destruct (upto_set ns2 idx _ Ex) as [U3 F3]. split; [by eapply upto_trans|]. intros j Hb. apply (upto_fixed ns ns2 _ j U2 U3). inversion Hb as [|? n' c ? En' Hc' Hb']; subst.
  - by right.
  - left. rewrite En in En'. injection En' as <-. by apply (F2 c).
Qed.
Lemma tree_below ns ps i : tree ns ps -> (i < length ns)%nat -> below ns 0 i.
Proof.
  intros T. assert (forall i j k, below ns i j -> (exists n, ns !! j = Some n /\ k ∈ children n) -> below ns i k) as X.
  { intros a b c H. induction H as [a|a n c' j En Hc _ IH]; intros (m & Em & Hk); [by eapply below_step; [..|constructor]|]. eapply below_step; [done..|]. apply IH. eauto. }
  induction (lt_wf i) as [i _ IH]. intros Hi. destruct i as [|i]; [constructor|]. apply lookup_lt_is_Some in Hi as [n En].
  destruct (w_par _ _ T (S i) n ltac:(lia) En) as (P & q & Eq & E). assert (S i < length ns)%nat by (by eapply lookup_lt_Some). apply (X 0%nat (parent n)); [apply IH; lia|].
  assert (exists m, ns !! parent n = Some m) as [m Em] by (apply lookup_lt_is_Some; lia). exists m. split; [done|]. apply (w_kids _ _ T _ _ _ Em Eq). by eexists.
Qed.
Lemma frame_end_ok t f ps l : prog f ps [l] -> exists n ns', frame_end t f = Ok (Frame 0 ns') /\ nodes f !! 0%nat = Some n /\
  let ns := alter (fun root => Node (loc root) (begin_ root) t (self_time root) (wrap 64 (t - begin_ root)) (calls root) (parent root) (children root)) 0%nat (nodes f) in
  tree ns ps /\ length ns' = length ns /\ forall i n, ns !! i = Some n -> ns' !! i = Some (set_self (own ns n) n).
Proof.
  intros P. pose proof (proj2 (prog_root _ _ _ P) (ex_intro _ l eq_refl)) as C. destruct P as [T _]. unfold frame_end. rewrite C. cbn [assert_ bool_decide mbind res_bind].
  destruct (w_root _ _ T) as (n & En & _). destruct (nodes f) as [|r ns0] eqn:Ens; [done|]. injection En as ->.
  rewrite bool_decide_true by done. cbn [assert_ mbind res_bind].
  set (ns := alter _ 0%nat (n :: ns0)). assert (tree ns ps) as T' by (apply tree_alter; [done|]; by repeat split).
  assert (length ns = S (length ns0)) as L by (unfold ns; by rewrite alter_length).
  destruct (self_times_ok (S (length ns0)) ns 0) as (ns' & E & U & F); [lia|lia|intros i m c; by apply (tree_child_lt ns ps)|].
  exists n, ns'. change (Node (loc n) (begin_ n) t (self_time n) (wrap 64 (t - begin_ n)) (calls n) (parent n) (children n) :: ns0) with ns. rewrite E. cbn [mbind res_bind].
  split_and!; [done|done|done| |].
  - apply Nat.le_antisymm.
    + apply Nat.nlt_ge. intros X. apply lookup_lt_is_Some in X as [m Em]. pose proof (U (length ns)) as Uj. rewrite lookup_ge_None_2 in Uj by lia. congruence.
    + apply Nat.nlt_ge. intros X. assert (is_Some (ns !! length ns')) as [m Em] by by apply lookup_lt_is_Some. pose proof (U (length ns')) as Uj. rewrite Em in Uj. destruct Uj as (x & Ex & _). apply lookup_lt_Some in Ex. lia.
  - intros i m Em. destruct (F i) as (m' & Em' & E'); [apply (tree_below ns ps); [done|by eapply lookup_lt_Some]|]. rewrite Em in Em'. injection Em' as <-. done.
Qed.

(** ** Facts about visits *)
Lemma total_cons v a : total (v :: a) = left v - came v + total a.
Proof. done. Qed.
Lemma total_app a b : total (a ++ b) = total a + total b.
Proof. unfold total. induction a as [|v a IH]; [done|]. cbn. rewrite IH. lia. Qed.
Lemma visits_app st h1 h2 st' : open_after st h1 = Some st' -> visits st (h1 ++ h2) = visits st h1 ++ visits st' h2.
Proof.
  revert st. induction h1 as [|[l t|t] h1 IH]; intros st E; cbn in *; [congruence|by apply IH|]. destruct st as [|[l a] st]; [done|]. cbn. f_equal. by apply IH.
Qed.
Lemma open_app st h1 h2 st' : open_after st h1 = Some st' -> open_after st (h1 ++ h2) = open_after st' h2.
Proof. revert st. induction h1 as [|[l t|t] h1 IH]; intros st E; cbn in *; [congruence|by apply IH|]. destruct st as [|x st]; [done|]. by apply IH. Qed.
Lemma open_below st h st' low : open_after st h = Some st' -> open_after (st ++ low) h = Some (st' ++ low).
Proof. revert st. induction h as [|[l t|t] h IH]; intros st E; cbn in *; [congruence|by apply (IH ((l, t) :: st))|]. destruct st as [|x st]; [done|]. by apply IH. Qed.
Lemma rising_app t h1 h2 : rising t (h1 ++ h2) -> rising t h1 /\ forall e, e ∈ h1 -> t <= time e < 2 ^ 64.
Proof.
  revert t. induction h1 as [|e h1 IH]; intros t R; cbn in *.
  - split; [|intros e H; by apply elem_of_nil in H]. revert t R. induction h2 as [|e h2 IH]; intros t R; cbn in R; [done|]. destruct R as [R1 R2]. specialize (IH _ R2). lia.
  - destruct R as [R1 R2]. destruct (IH _ R2) as [A B]. split; [done|]. intros x Hx. apply elem_of_cons in Hx as [->|Hx].
    + split; [done|]. clear -A. revert A. generalize (time e). induction h1 as [|y h1 IH]; intros t A; cbn in A; [done|]. destruct A as [A1 A2]. specialize (IH _ A2). lia.
    + specialize (B _ Hx). lia.
Qed.
Lemma rising_lt t h : rising t h -> t < 2 ^ 64.
Proof. revert t. induction h as [|e h IH]; intros t R; cbn in R; [done|]. destruct R as [R1 R2]. specialize (IH _ R2). lia. Qed.

(** Time already spent in a scope that is open, apart from a scope open in it *)
Fixpoint pot (st : list (nat * Z)) (now : Z) (q : list nat) : Z :=
  match st with
  | [] => 0
  | (l, a) :: st' => if decide (rev (map fst st) = q) then now - a else pot st' a q
  end.
Lemma pot_long st now q : (length st < length q)%nat -> pot st now q = 0.
Proof.
  revert now. induction st as [|[l a] st IH]; intros now L; [done|]. cbn [pot]. rewrite decide_False; [apply IH; cbn in L; lia|]. intros <-. rewrite rev_length, map_length in L. lia.
Qed.
Lemma pot_mono st now now' q : now <= now' -> pot st now q <= pot st now' q.
Proof. intros L. destruct st as [|[l a] st]; [done|]. cbn [pot]. case_decide; lia. Qed.
Lemma inside_cons q v vs : inside q (v :: vs) = (if decide (path v <> [] /\ removelast (path v) = q) then left v - came v else 0) + inside q vs.
Proof. unfold inside. rewrite filter_cons. repeat case_decide; try tauto; rewrite ?total_cons; lia. Qed.
Lemma inclusive_cons q v vs : inclusive q (v :: vs) = (if decide (path v = q) then left v - came v else 0) + inclusive q vs.
Proof. unfold inclusive. rewrite filter_cons. repeat case_decide; try tauto; rewrite ?total_cons; lia. Qed.
Lemma nested q : q <> [] -> forall h st now, rising now h -> open_after st h = Some [] -> inside q (visits st h) + pot st now q <= inclusive q (visits st h).
Proof.
  intros Nq. induction h as [|[l t|t] h IH]; intros st now R O; cbn [visits open_after rising time] in *.
  - injection O as ->. done.
  - destruct R as [R1 R2]. specialize (IH _ _ R2 O). cbn [pot] in IH. case_decide as D.
    + rewrite pot_long; [lia|]. rewrite <-D, rev_length, map_length. cbn. lia.
    + pose proof (pot_mono st now t q). lia.
  - destruct R as [R1 R2]. destruct st as [|[l a] st]; [done|]. specialize (IH _ _ R2 O). rewrite inside_cons, inclusive_cons. cbn [path left came pot].
    assert (removelast (rev (map fst ((l, a) :: st))) = rev (map fst st)) as RL by apply removelast_last. rewrite RL.
    assert (rev (map fst ((l, a) :: st)) <> []) as NE by (cbn; by destruct (rev (map fst st))).
    destruct (decide (rev (map fst ((l, a) :: st)) = q)) as [D|D].
    + rewrite decide_False; [|intros [_ X]; rewrite <-X in D; cbn in D; apply (f_equal length) in D; rewrite app_length in D; cbn in D; lia].
      rewrite pot_long in IH; [lia|]. rewrite <-D, rev_length, map_length. cbn. lia.
    + destruct (decide (rev (map fst st) = q)) as [D'|D'].
      * rewrite decide_True by done. destruct st as [|[l' a'] st]; [done|]. cbn [pot] in IH |- *. rewrite decide_True in IH by done. rewrite decide_True by done. lia.
      * rewrite decide_False by tauto. destruct st as [|[l' a'] st]; [cbn in *; lia|]. cbn [pot] in IH |- *. rewrite decide_False in IH by done. rewrite decide_False by done. lia.
Qed.
(** A scope that is open is visited once it is left *)
Lemma closes h : forall top x low st', open_after (top ++ x :: low) h = Some st' -> (length st' <= length low)%nat -> exists v, v ∈ visits (top ++ x :: low) h /\ path v = rev (map fst (x :: low)).
Proof.
  induction h as [|[l t|t] h IH]; intros top x low st' O L; cbn [visits open_after] in *.
  - injection O as <-. rewrite app_length in L. cbn in L. lia.
  - by apply (IH ((l, t) :: top) x low st').
  - destruct top as [|[l a] top].
    + cbn [app] in *. destruct x as [l a]. eexists. split; [left|done].
    + cbn [app] in *. destruct (IH top x low st' O L) as (v & H1 & H2). exists v. split; [by right|done].
Qed.
Lemma filter_one V v : NoDup (map path V) -> v ∈ V -> filter (fun w => path w = path v) V = [v].
Proof.
  induction V as [|w V IH]; intros N H; [by apply elem_of_nil in H|]. cbn in N. apply NoDup_cons in N as [N1 N2]. rewrite filter_cons. apply elem_of_cons in H as [->|H].
  - rewrite decide_True by done. f_equal. apply elem_of_nil_inv. intros u Hu. apply elem_of_list_filter in Hu as [E Hu]. apply N1. rewrite <-E. by apply elem_of_list_fmap_1.
  - rewrite decide_False; [by apply IH|]. intros E. apply N1. rewrite E. by apply elem_of_list_fmap_1.
Qed.

(** ** Times in a frame in progress, no scope being entered twice *)
Definition node_at (ns : list node) (ps : list (list nat)) (q : list nat) (P : node -> Prop) : Prop := exists i n, ps !! i = Some q /\ ns !! i = Some n /\ P n.
Definition opath (k : nat) (st : list (nat * Z)) : list nat := rev (map fst (drop k st)).
Record timed (f : frame) (ps : list (list nat)) (st : list (nat * Z)) (vs : list visit) (now : Z) : Prop := {
  t_prog : prog f ps (map fst st);
  t_calls : forall i n, nodes f !! i = Some n -> calls n = 1;
  t_open : forall k l a, st !! k = Some (l, a) -> node_at (nodes f) ps (opath k st) (fun n => begin_ n = a /\ heir_time n = 0);
  t_closed : forall v, v ∈ vs -> node_at (nodes f) ps (path v) (fun n => heir_time n = left v - came v);
  t_all : forall q, q ∈ ps -> (exists v, v ∈ vs /\ path v = q) \/ exists k, (k < length st)%nat /\ q = opath k st;
  t_now : forall x, x ∈ st -> 0 <= snd x <= now
}.
Lemma opath_length k st : length (opath k st) = (length st - k)%nat.
Proof. unfold opath. by rewrite rev_length, map_length, drop_length. Qed.
Lemma timed_enter f ps st vs now l t : timed f ps st vs now -> now <= t -> 0 <= t -> ~ (exists v, v ∈ vs /\ path v = rev (map fst ((l, t) :: st))) ->
  exists f' ps', frame_enter l t f = Ok f' /\ timed f' ps' ((l, t) :: st) vs t.
Proof.
  intros [[T C] Hc Ho Hv Ha Hn] L L0 NV. assert (exists n, nodes f !! current_node f = Some n) as [n En]. { apply lookup_lt_is_Some. rewrite <-(w_len _ _ T). by eapply lookup_lt_Some. }
  set (q := rev (map fst st)). assert (q ++ [l] ∉ ps) as Nq.
  { intros Hin. destruct (Ha _ Hin) as [(v & H1 & H2)|(k & Hk & E)]; [apply NV; by exists v|]. apply (f_equal length) in E. rewrite app_length, opath_length in E. unfold q in E. rewrite rev_length, map_length in E. cbn in E. lia. }
  unfold frame_enter, at_. rewrite En. cbn [mbind res_bind]. destruct (find_child_spec _ _ _ _ _ l T En C) as (r & -> & R). cbn [mbind res_bind]. destruct r as [c|]; [exfalso; apply Nq; by eapply elem_of_list_lookup_2|].
  eexists _, (ps ++ [q ++ [l]]). split; [done|]. assert (length ps = length (nodes f)) as Lp by apply T.
  assert (forall q' (P : node -> Prop), (forall m g, P m -> P (with_children g m)) -> node_at (nodes f) ps q' P -> node_at (alter (with_children (λ cs : list nat, cs ++ [length (nodes f)])) (current_node f) (nodes f) ++ [make l (current_node f) t]) (ps ++ [q ++ [l]]) q' P) as Keep.
  { intros q' P HP (i & m & E1 & E2 & E3). destruct (decide (current_node f = i)) as [<-|D].
    - exists (current_node f). eexists. split; [by apply lookup_app_l_Some|]. split; [apply lookup_app_l_Some; by rewrite list_lookup_alter, E2|]. by apply HP.
    - exists i, m. split; [by apply lookup_app_l_Some|]. split; [|done]. apply lookup_app_l_Some. by rewrite list_lookup_alter_ne. }
  split; cbn [nodes].
  - split; [by apply (tree_add _ _ _ n)|]. cbn [current_node map]. rewrite lookup_app_r by lia. by rewrite Lp, Nat.sub_diag.
  - intros i m Em. apply lookup_app_Some in Em as [Em|[_ Em]].
    + apply alter_Some in Em as [(_ & m0 & E0 & ->)|[_ E0]]; [by apply (Hc _ _ E0)|by apply (Hc _ _ E0)].
    + destruct (i - _)%nat; [|done]. by injection Em as <-.
  - intros [|k] l' a E.
    + injection E as <- <-. exists (length ps). eexists. split; [rewrite lookup_app_r, Nat.sub_diag by lia; done|]. rewrite lookup_app_r by (rewrite alter_length; lia). rewrite alter_length, Lp, Nat.sub_diag. done.
    + apply Keep; [done|]. by apply (Ho k l').
  - intros v H. apply Keep; [done|]. by apply Hv.
  - intros q' H. apply elem_of_app in H as [H|H].
    + destruct (Ha _ H) as [?|(k & Hk & E)]; [by left|]. right. exists (S k). cbn [length]. split; [lia|done].
    + apply elem_of_list_singleton in H as ->. right. exists 0%nat. cbn [length]. split; [lia|done].
  - intros x Hx. apply elem_of_cons in Hx as [->|Hx]; [cbn; lia|]. specialize (Hn _ Hx). lia.
Qed.
Lemma timed_exit f ps l a st vs now t : timed f ps ((l, a) :: st) vs now -> st <> [] -> now <= t < 2 ^ 64 -> ~ (exists v, v ∈ vs /\ path v = rev (map fst ((l, a) :: st))) ->
  exists f', frame_exit t f = Ok f' /\ timed f' ps st (vs ++ [Visit (rev (map fst ((l, a) :: st))) a t]) t.
Proof.
  intros [[T C] Hc Ho Hv Ha Hn] NE L NV. set (q := rev (map fst ((l, a) :: st))) in *.
  destruct (Hn (l, a)) as [B1 B2]; [left|]. cbn in B1, B2.
  destruct (prog_exit f ps (map fst ((l, a) :: st)) t (conj T C)) as (f' & n & E & En & Ec & P). exists f'. split; [done|].
  unfold frame_exit, at_ in E. rewrite En in E. cbn [mbind res_bind] in E. injection E as <-.
  destruct (Ho 0%nat l a eq_refl) as (i & m & Ei & Em & Hb & Hh). change (opath 0 ((l, a) :: st)) with q in Ei. pose proof (NoDup_lookup _ _ _ _ (w_nodup _ _ T) C Ei) as <-. rewrite En in Em. injection Em as <-.
  match goal with |- timed (Frame _ ?ns) _ _ _ _ => set (ns' := ns) end.
  assert (forall q' (Q : node -> Prop), q' <> q -> node_at (nodes f) ps q' Q -> node_at ns' ps q' Q) as Keep.
  { intros q' Q D (i & m & E1 & E2 & E3). exists i, m. split_and!; [done| |done]. unfold ns'. rewrite list_lookup_alter_ne; [done|]. intros <-. apply D. rewrite C in E1. by injection E1 as <-. }
  split; cbn [nodes].
  - cbn [map] in P. destruct st as [|x st]; [done|]. exact P.
  - intros i m Em. apply alter_Some in Em as [(_ & m0 & E0 & ->)|[_ E0]]; by apply (Hc _ _ E0).
  - intros k l' a' E. apply Keep; [|by apply (Ho (S k) l')]. intros E'. apply (f_equal length) in E'. rewrite opath_length in E'. unfold q in E'. rewrite rev_length, map_length in E'. cbn in E'. apply lookup_lt_Some in E. lia.
  - intros v H. apply elem_of_app in H as [H|H].
    + apply Keep; [|by apply Hv]. intros E. apply NV. by exists v.
    + apply elem_of_list_singleton in H as ->. cbn [path left came]. exists (current_node f). eexists. split; [done|]. unfold ns'. rewrite list_lookup_alter, En. split; [done|]. cbn [heir_time]. rewrite Hh, Hb.
      apply wrap_small. unfold is_u. lia.
  - intros q' H. destruct (Ha _ H) as [(v & H1 & H2)|(k & Hk & E)].
    + left. exists v. split; [apply elem_of_app; by left|done].
    + destruct k as [|k].
      * left. eexists. split; [apply elem_of_app; right; left|]. done.
      * right. exists k. cbn in Hk. split; [lia|done].
  - intros x Hx. specialize (Hn x ltac:(by right)). lia.
Qed.

(** The events of a frame *)
Fixpoint frame_run (f : frame) (h : list ev) : res frame :=
  match h with
  | [] => Ok f
  | In l t :: h => f ← frame_enter l t f; frame_run f h
  | Out t :: h => f ← frame_exit t f; frame_run f h
  end.
Lemma timed_run h : forall f ps st vs now x, timed f ps (st ++ [x]) vs now -> rising now h -> 0 <= now -> open_after st h = Some [] -> NoDup (map path (vs ++ visits (st ++ [x]) h)) ->
  exists f' ps' now', frame_run f h = Ok f' /\ timed f' ps' [x] (vs ++ visits (st ++ [x]) h) now'.
Proof.
  induction h as [|[l t|t] h IH]; intros f ps st vs now x Ht R L0 O N; cbn [frame_run visits open_after rising time] in *.
  - injection O as ->. exists f, ps, now. rewrite app_nil_r. done.
  - destruct R as [R1 R2]. destruct (timed_enter f ps (st ++ [x]) vs now l t) as (f1 & ps1 & -> & H1); [done|done|lia| |].
    { intros (v & Hv & E). destruct (closes h [] (l, t) (st ++ [x]) [x]) as (w & Hw & Ew).
      - cbn [app]. apply (open_below ((l, t) :: st) h [] [x]) in O. done.
      - rewrite app_length. cbn. lia.
      - cbn [app] in Hw. rewrite map_app in N. apply NoDup_app in N as (_ & N & _). apply (N (path v)); [by apply elem_of_list_fmap_1|]. rewrite E, <-Ew. by apply elem_of_list_fmap_1. }
    cbn [mbind res_bind]. apply (IH f1 ps1 ((l, t) :: st) vs t x); [done|done|lia|done|done].
  - destruct R as [R1 R2]. destruct st as [|[l a] st]; [done|]. cbn [app] in *. pose proof (rising_lt _ _ R2) as Lt.
    destruct (timed_exit f ps l a (st ++ [x]) vs now t) as (f1 & -> & H1); [done|by destruct st|lia| |].
    { intros (v & Hv & E). rewrite map_app in N. apply NoDup_app in N as (_ & N & _). apply (N (path v)); [by apply elem_of_list_fmap_1|]. rewrite E. cbn. left. }
    cbn [mbind res_bind]. destruct (IH f1 ps st (vs ++ [Visit (rev (map fst ((l, a) :: st ++ [x]))) a t]) t x) as (f' & ps' & now' & E & H2); [done|done|lia|done| |].
    { rewrite <-app_assoc. exact N. }
    exists f', ps', now'. rewrite <-app_assoc in H2. done.
Qed.

Lemma sum_perm (g : list nat -> Z) a b : a ≡ₚ b -> foldr (fun q s => g q + s) 0 a = foldr (fun q s => g q + s) 0 b.
Proof. induction 1; cbn; lia. Qed.
(** What a frame holds at its end *)
Lemma timed_end f ps t0 vs now t1 : timed f ps [(root_loc, t0)] vs now -> now <= t1 < 2 ^ 64 -> let V := vs ++ [Visit [root_loc] t0 t1] in NoDup (map path V) -> (forall q, q <> [] -> inside q V <= inclusive q V) ->
  (forall v, v ∈ V -> 0 <= left v - came v < 2 ^ 64) ->
  exists ns, frame_end t1 f = Ok (Frame 0 ns) /\ tree ns ps /\ (forall q, q ∈ ps <-> exists v, v ∈ V /\ path v = q) /\
    forall i n q, ns !! i = Some n -> ps !! i = Some q -> calls n = entries q V /\ heir_time n = inclusive q V /\ self_time n = inclusive q V - inside q V /\ 0 <= self_time n.
Proof.
  intros [P Hc Ho Hv Ha Hn] L V N Hin Hd. destruct (frame_end_ok t1 f ps root_loc P) as (r & ns' & E & Er & H). cbn zeta in H. set (ns := alter _ 0%nat (nodes f)) in H. destruct H as (T & Ln & K).
  destruct P as [T0 _].
  exists ns'. split; [done|].
  destruct (Ho 0%nat root_loc t0 eq_refl) as (i0 & r' & E0 & Er' & Hb & Hh). change (opath 0 [(root_loc, t0)]) with [root_loc] in E0.
  assert (i0 = 0%nat) as ->.
  { destruct i0 as [|i0]; [done|]. destruct (w_par _ _ T0 (S i0) r' ltac:(lia) Er') as (_ & q & Eq & E'). rewrite E0 in E'. injection E' as E'. change [root_loc] with ([] ++ [root_loc]) in E'. apply app_inj_tail in E' as [<- _]. by destruct (tree_ne _ _ _ _ T0 Eq). }
  rewrite Er in Er'. injection Er' as <-.
  assert (forall v, v ∈ V -> node_at ns ps (path v) (fun n => heir_time n = left v - came v)) as HV.
  { intros v H. apply elem_of_app in H as [H|H].
    - destruct (Hv v H) as (i & n & H1 & H2 & H3). exists i, n. split_and!; [done| |done]. unfold ns. rewrite list_lookup_alter_ne; [done|]. intros <-. rewrite E0 in H1. injection H1 as H1.
      unfold V in N. rewrite map_app in N. apply NoDup_app in N as (_ & N & _). apply (N (path v)); [by apply elem_of_list_fmap_1|]. rewrite <-H1. left.
    - apply elem_of_list_singleton in H as ->. exists 0%nat. eexists. split; [done|]. unfold ns. rewrite list_lookup_alter, Er. split; [done|]. cbn [heir_time left came]. rewrite Hb. apply wrap_small.
      specialize (Hd (Visit [root_loc] t0 t1) ltac:(apply elem_of_app; right; left)). unfold is_u. cbn in Hd. lia. }
  assert (forall q, q ∈ ps <-> exists v, v ∈ V /\ path v = q) as HA.
  { intros q. split.
    - intros H. destruct (Ha q H) as [(v & H1 & H2)|(k & Hk & ->)]; [exists v; split; [apply elem_of_app; by left|done]|]. cbn in Hk. assert (k = 0%nat) as -> by lia. eexists. split; [apply elem_of_app; right; left|]. done.
    - intros (v & H & <-). destruct (HV v H) as (i & _ & H1 & _). by eapply elem_of_list_lookup_2. }
  assert (forall i n, ns !! i = Some n -> forall q, ps !! i = Some q -> heir_time n = inclusive q V /\ entries q V = 1) as HH.
  { intros i n En q Eq. destruct (proj1 (HA q)) as (v & H1 & <-); [by eapply elem_of_list_lookup_2|]. destruct (HV v H1) as (j & m & H2 & H3 & H4). pose proof (NoDup_lookup _ _ _ _ (w_nodup _ _ T) Eq H2) as <-. rewrite En in H3. injection H3 as <-.
    unfold inclusive, entries. rewrite (filter_one V v) by done. cbn. lia. }
  split; [|split; [exact HA|]].
  - assert (forall i n', ns' !! i = Some n' -> exists n, ns !! i = Some n /\ n' = set_self (own ns n) n) as K'.
    { intros i n' E'. assert (i < length ns)%nat as Li by (rewrite <-Ln; by eapply lookup_lt_Some). apply lookup_lt_is_Some in Li as [n En]. exists n. split; [done|]. rewrite (K _ _ En) in E'. by injection E' as <-. }
    split.
    + by rewrite Ln, (w_len _ _ T).
    + destruct (w_root _ _ T) as (x & X1 & X2 & X3). eexists. rewrite (K _ _ X1). done.
    + apply T.
    + intros i n' Hi E'. destruct (K' _ _ E') as (n & En & ->). cbn. by apply (w_par _ _ T).
    + intros i n' q E' Eq. destruct (K' _ _ E') as (n & En & ->). cbn. by apply (w_kids _ _ T i n q).
  - intros i n' q E' Eq. assert (i < length ns)%nat as Li by (rewrite <-Ln; by eapply lookup_lt_Some). apply lookup_lt_is_Some in Li as [n En]. rewrite (K _ _ En) in E'. injection E' as <-. cbn [calls heir_time self_time set_self].
    destruct (HH _ _ En _ Eq) as [H1 H2]. pose proof (tree_ne _ _ _ _ T Eq) as Nq.
    assert (heirs ns (children n) = inside q V) as HI.
    { destruct (w_kids _ _ T _ _ _ En Eq) as [K1 K2].
      assert (heirs ns (children n) = foldr (fun q s => inclusive q V + s) 0 (map (fun c => ps !!! c) (children n))) as ->.
      { assert (forall c, c ∈ children n -> exists m, ns !! c = Some m /\ heir_time m = inclusive (ps !!! c) V) as X.
        { intros c H. destruct (proj1 (K2 c) H) as [l Ec]. assert (c < length ns)%nat as Lc by (rewrite <-(w_len _ _ T); by eapply lookup_lt_Some). apply lookup_lt_is_Some in Lc as [m Em]. exists m. split; [done|].
          rewrite (list_lookup_total_correct _ _ _ Ec). by apply (HH c m Em). }
        clear -X. unfold heirs. induction (children n) as [|c cs IH]; [done|]. cbn. destruct (X c) as (m & -> & ->); [left|]. rewrite IH; [done|]. intros. apply X. by right. }
      rewrite (sum_perm _ _ (map path (filter (fun v => path v <> [] /\ removelast (path v) = q) V))).
      - unfold inside, total. assert (forall v, v ∈ filter (fun v => path v <> [] /\ removelast (path v) = q) V -> inclusive (path v) V = left v - came v) as X.
        { intros v H. apply elem_of_list_filter in H as [_ H]. unfold inclusive. rewrite (filter_one V v) by done. cbn. lia. }
        clear -X. induction (filter _ V) as [|v W IH]; [done|]. cbn. rewrite X by left. rewrite IH; [done|]. intros. apply X. by right.
      - apply NoDup_Permutation.
        + assert (forall c, c ∈ children n -> exists p, ps !! c = Some p) as X by (intros c H; destruct (proj1 (K2 c) H) as [l Ec]; by eexists).
          clear -K1 X T. induction (children n) as [|c cs IH]; [constructor|]. cbn. apply NoDup_cons in K1 as [A B]. apply NoDup_cons. split; [|apply IH; [done|]; intros; apply X; by right].
          intros H. apply elem_of_list_fmap in H as (d & E & Hd). destruct (X c) as [p Ep]; [left|]. destruct (X d) as [p' Ep']; [by right|]. rewrite (list_lookup_total_correct _ _ _ Ep), (list_lookup_total_correct _ _ _ Ep') in E. subst p'.
          pose proof (NoDup_lookup _ _ _ _ (w_nodup _ _ T) Ep Ep') as <-. done.
        + clear -N. induction V as [|v W IH]; [constructor|]. cbn in N. apply NoDup_cons in N as [A B]. rewrite filter_cons. case_decide; [|by apply IH]. cbn. apply NoDup_cons. split; [|by apply IH].
          intros X. apply A. apply elem_of_list_fmap in X as (w & E & Hw). apply elem_of_list_filter in Hw as [_ Hw]. rewrite E. by apply elem_of_list_fmap_1.
        + intros p. rewrite !elem_of_list_fmap. split.
          * intros (c & -> & Hc'). destruct (proj1 (K2 c) Hc') as [l Ec]. rewrite (list_lookup_total_correct _ _ _ Ec). destruct (proj1 (HA (q ++ [l]))) as (v & V1 & V2); [by eapply elem_of_list_lookup_2|].
            exists v. split; [done|]. apply elem_of_list_filter. rewrite V2. split; [|done]. split; [by destruct q|]. apply removelast_last.
          * intros (v & -> & H). apply elem_of_list_filter in H as [[A B] H]. assert (path v ∈ ps) as Hp by (apply HA; by exists v). apply elem_of_list_lookup in Hp as [c Ec]. exists c. split; [by rewrite (list_lookup_total_correct _ _ _ Ec)|].
            apply K2. exists (List.last (path v) 0%nat). rewrite Ec. f_equal. rewrite <-B. by apply app_removelast_last. }
    assert (0 <= inside q V) as I0.
    { unfold inside. assert (forall W, (forall v, v ∈ W -> 0 <= left v - came v) -> 0 <= total W) as X.
      { induction W as [|v W IH]; intros H; [done|]. cbn. pose proof (H v ltac:(left)). specialize (IH ltac:(intros; apply H; by right)). unfold total in IH. lia. }
      apply X. intros v H. apply elem_of_list_filter in H as [_ H]. apply Hd in H. lia. }
    assert (0 <= inclusive q V < 2 ^ 64) as I1.
    { destruct (proj1 (HA q)) as (v & V1 & <-); [by eapply elem_of_list_lookup_2|]. unfold inclusive. rewrite (filter_one V v) by done. cbn. apply Hd in V1. lia. }
    specialize (Hin q Nq). unfold own. rewrite HI, H1, wrap_small by (unfold is_u; lia). split_and!; [|done|done|lia].
    rewrite H2. destruct (nodes f !! i) as [m|] eqn:Em.
    + unfold ns in En. apply alter_Some in En as [(_ & m0 & X & ->)|[_ X]]; cbn; by apply (Hc _ _ X).
    + unfold ns in En. apply alter_Some in En as [(_ & m0 & X & ->)|[_ X]]; congruence.
Qed.
Close Scope Z_scope.
