(** Refinement of the intrusive free lists to stacks of cached blocks. *)
From stdpp Require Import gmap.
From Verif Require Import Base FreeListModel FreeListSpec.

Section proofs.
  Context {T : Type}.
  Implicit Types (st : fl_state T) (s : fl_spec T).

  Fixpoint linked (m : gmap nat (cell T)) (h : option nat) (c : list nat) : Prop :=
    match c with
    | [] => h = None
    | p :: c' => h = Some p /\ exists n, m !! p = Some (CNext n) /\ linked m n c'
    end.
  Lemma linked_ext m m' h c : (forall p, p ∈ c -> m' !! p = m !! p) -> linked m h c -> linked m' h c.
  Proof.
    revert h. induction c as [|p c IH]; intros h E; [done|]. intros (-> & n & Hn & L). split; [done|].
    exists n. rewrite E by apply elem_of_list_here. split; [done|]. apply IH; [|done].
    intros q Hq. apply E. by apply elem_of_list_further.
  Qed.
  Lemma linked_cells m h c p : linked m h c -> p ∈ c -> exists n, m !! p = Some (CNext n).
  Proof.
    revert h. induction c as [|q c IH]; intros h; [intros _ []%elem_of_nil|].
    intros (-> & n & Hn & L) [->|H]%elem_of_cons; eauto.
  Qed.

  (** Every block obtained is cached, alive or given back, once. *)
  Definition accounted s (back : list nat) : Prop :=
    List.concat (cached s) ++ (map_to_list (alive s)).*1 ++ back ≡ₚ seq 0 (fresh s).
  Record rel st s : Prop := mk_rel {
    rel_len : length (lists st) = length (cached s);
    rel_linked : forall i h c, lists st !! i = Some h -> cached s !! i = Some c -> linked (mem st) h c;
    rel_alive : forall p x, mem st !! p = Some (CVal x) <-> alive s !! p = Some x;
    rel_fresh : obtained st = fresh s
  }.

  Lemma concat_insert_perm (l : list (list nat)) i c c' :
    l !! i = Some c -> List.concat (<[i := c']> l) ++ c ≡ₚ List.concat l ++ c'.
  Proof.
    revert i. induction l as [|a l IH]; intros [|i] E; cbn in *; try done.
    - injection E as ->. rewrite <- !app_assoc. rewrite (Permutation_app_comm (List.concat l) c).
      rewrite Permutation_app_swap_app. by rewrite (Permutation_app_comm (List.concat l)).
    - rewrite <- !app_assoc. by rewrite IH.
  Qed.
  Lemma elem_of_concat (l : list (list nat)) i c p : l !! i = Some c -> p ∈ c -> p ∈ List.concat l.
  Proof.
    revert i. induction l as [|a l IH]; intros [|i] E H; cbn in *; try done; apply elem_of_app.
    - injection E as ->. by left.
    - right. eauto.
  Qed.
  Lemma concat_nodup_same (l : list (list nat)) i j c d p : NoDup (List.concat l) ->
    l !! i = Some c -> l !! j = Some d -> p ∈ c -> p ∈ d -> i = j.
  Proof.
    revert i j. induction l as [|a l IH]; intros [|i] [|j] ND E1 E2 H1 H2; cbn in *; try done;
      apply NoDup_app in ND as (N1 & N2 & N3).
    - injection E1 as ->. exfalso. apply (N2 p H1). by eapply elem_of_concat.
    - injection E2 as ->. exfalso. apply (N2 p H2). by eapply elem_of_concat.
    - f_equal. eauto.
  Qed.
  Lemma concat_nodup_one (l : list (list nat)) i c : NoDup (List.concat l) -> l !! i = Some c -> NoDup c.
  Proof.
    revert i. induction l as [|a l IH]; intros [|i] ND E; cbn in *; try done; apply NoDup_app in ND as (N1 & N2 & N3).
    - by injection E as ->.
    - eauto.
  Qed.

  Lemma accounted_nodup s back : accounted s back ->
    NoDup (List.concat (cached s)) /\
    (forall p, p ∈ List.concat (cached s) -> alive s !! p = None) /\
    (forall p, p ∈ List.concat (cached s) -> p < fresh s) /\
    (forall p x, alive s !! p = Some x -> p < fresh s).
  Proof.
    intros A. assert (NoDup (List.concat (cached s) ++ (map_to_list (alive s)).*1 ++ back)) as ND.
    { rewrite A. apply NoDup_seq. }
    apply NoDup_app in ND as (N1 & N2 & N3). split_and!; [done| | |].
    - intros p H. destruct (alive s !! p) as [x|] eqn:E; [|done]. exfalso. apply (N2 p H), elem_of_app. left.
      apply elem_of_list_fmap. exists (p, x). split; [done|]. by apply elem_of_map_to_list.
    - intros p H. assert (p ∈ seq 0 (fresh s)) as X by (rewrite <- A; apply elem_of_app; by left).
      apply elem_of_seq in X. lia.
    - intros p x E. assert (p ∈ seq 0 (fresh s)) as X.
      { rewrite <- A, !elem_of_app. right. left. apply elem_of_list_fmap. exists (p, x). split; [done|].
        by apply elem_of_map_to_list. }
      apply elem_of_seq in X. lia.
  Qed.

  Definition out_back (x : fl_out T) : list nat := match x with FLReturned b => b | _ => [] end.
  Lemma spec_accounted s back o s' x :
    accounted s back -> fls_step s o = Some (s', x) -> accounted s' (back ++ out_back x).
  Proof.
    intros A. pose proof (accounted_nodup _ _ A) as (N1 & N2 & N3 & N4). unfold accounted in *.
    destruct o as [i v|i p|i|i j]; cbn [fls_step].
    - destruct (cached s !! i) as [[|p c]|] eqn:E; cbn; [| |done].
      + intros [= <- <-]. cbn [cached alive fresh out_back]. rewrite app_nil_r.
        rewrite map_to_list_insert.
        2:{ destruct (alive s !! fresh s) eqn:F; [|done]. apply N4 in F. lia. }
        cbn [fmap list_fmap fst]. rewrite seq_S. cbn [Nat.add].
        rewrite <- A. cbn [app]. rewrite <- Permutation_middle.
        by rewrite (Permutation_app_comm _ [fresh s]).
      + intros [= <- <-]. cbn [cached alive fresh out_back]. rewrite app_nil_r.
        assert (alive s !! p = None).
        { apply N2. eapply elem_of_concat; [exact E|apply elem_of_list_here]. }
        rewrite map_to_list_insert by done. cbn [fmap list_fmap fst].
        rewrite <- A. cbn [app]. rewrite <- Permutation_middle.
        pose proof (concat_insert_perm _ _ _ c E) as P.
        rewrite (Permutation_app_comm _ (p :: c)) in P. cbn [app] in P.
        rewrite (Permutation_app_comm c), (Permutation_app_comm (List.concat (cached s)) c) in P.
        rewrite app_comm_cons in P. rewrite (Permutation_app_comm c) in P. apply Permutation_app_inv_r in P.
        rewrite app_comm_cons. by rewrite P.
    - destruct (alive s !! p) as [v|] eqn:E; cbn; [|done]. destruct (cached s !! i) as [c|] eqn:Ec; cbn; [|done].
      intros [= <- <-]. cbn [cached alive fresh out_back]. rewrite app_nil_r. rewrite <- A.
      rewrite <- (insert_delete (alive s) p v E) at 2.
      rewrite map_to_list_insert by apply lookup_delete. cbn [fmap list_fmap fst app].
      rewrite <- Permutation_middle.
      pose proof (concat_insert_perm _ _ _ (p :: c) Ec) as P.
      rewrite (Permutation_app_comm (List.concat (cached s))) in P. cbn [app] in P.
      rewrite (Permutation_app_comm c) in P. rewrite app_comm_cons in P. apply Permutation_app_inv_r in P.
      rewrite P. by rewrite app_comm_cons.
    - destruct (cached s !! i) as [c|] eqn:Ec; cbn; [|done].
      intros [= <- <-]. cbn [cached alive fresh out_back]. rewrite <- A.
      pose proof (concat_insert_perm _ _ _ [] Ec) as P. rewrite app_nil_r in P. rewrite <- P.
      rewrite <- !app_assoc. rewrite (Permutation_app_comm c).  by rewrite <- !app_assoc.
    - destruct (cached s !! i) as [c|] eqn:Ec; cbn; [|done]. destruct (cached s !! j) as [d|] eqn:Ed; cbn; [|done].
      intros [= <- <-]. cbn [cached alive fresh out_back]. rewrite <- A.
      destruct (decide (i = j)) as [<-|NE].
      + rewrite list_insert_insert.
        pose proof (concat_insert_perm _ _ _ [] Ec) as P. rewrite app_nil_r in P. rewrite <- P.
        rewrite <- !app_assoc. rewrite (Permutation_app_comm c).  by rewrite <- !app_assoc.
      + assert (<[i := d]> (cached s) !! j = Some d) as Ed2 by (by rewrite list_lookup_insert_ne).
        pose proof (concat_insert_perm _ _ _ [] Ed2) as P2. rewrite app_nil_r in P2.
        pose proof (concat_insert_perm _ _ _ d Ec) as P. rewrite <- P2 in P.
        rewrite <- app_assoc, (Permutation_app_comm d c), app_assoc in P. apply Permutation_app_inv_r in P.
        rewrite <- P. rewrite <- !app_assoc. rewrite (Permutation_app_comm c).  by rewrite <- !app_assoc.
  Qed.

  Lemma head_ok st i h : lists st !! i = Some h -> head_of st i = Ok h.
  Proof. unfold head_of. by intros ->. Qed.

  Lemma clear_loop_ok c : forall fuel st i h,
    lists st !! i = Some h -> linked (mem st) h c -> NoDup c -> length c <= fuel ->
    exists m, clear_loop fuel st i = Ok (mk_fl (<[i := None]> (lists st)) m (obtained st), c) /\
      (forall q, q ∈ c -> m !! q = None) /\ (forall q, q ∉ c -> m !! q = mem st !! q).
  Proof.
    induction c as [|p c IH]; intros fuel st i h E L ND F.
    - cbn in L. subst h. exists (mem st). split_and!; [|by intros q []%elem_of_nil|done].
      destruct fuel; cbn [clear_loop]; rewrite (head_ok _ _ _ E); cbn [mbind res_bind];
        rewrite list_insert_id by done; by destruct st.
    - destruct L as (-> & n & Hn & L). apply NoDup_cons in ND as [Np ND].
      destruct fuel as [|fuel]; [cbn in F; lia|]. cbn [clear_loop]. rewrite (head_ok _ _ _ E). cbn [mbind res_bind].
      unfold next_of. rewrite Hn. cbn [mbind res_bind].
      destruct (IH fuel (set_head (mk_fl (lists st) (delete p (mem st)) (obtained st)) i n) i n) as (m & -> & M1 & M2).
      + cbn. apply list_lookup_insert. by eapply lookup_lt_Some.
      + cbn. eapply linked_ext; [|exact L]. intros q Hq. apply lookup_delete_ne. congruence.
      + done.
      + cbn in F. lia.
      + cbn [mbind res_bind set_head lists obtained]. rewrite list_insert_insert. exists m. split_and!; [done| |].
        * intros q [->|Hq]%elem_of_cons; [|by apply M1]. rewrite M2 by done. cbn. apply lookup_delete.
        * intros q [Nq Hq]%not_elem_of_cons. rewrite M2 by done. cbn. by apply lookup_delete_ne.
  Qed.
  Lemma linked_size (m : gmap nat (cell T)) h c : linked m h c -> NoDup c -> length c <= size m.
  Proof.
    intros L ND. rewrite <- size_dom. rewrite <- (size_list_to_set (C := gset nat) c) by done.
    apply subseteq_size. intros p Hp%elem_of_list_to_set. apply elem_of_dom.
    destruct (linked_cells _ _ _ _ L Hp) as [n ->]. by eexists.
  Qed.

  (** The model does what the specification says; calls that break the contract
      are undefined. *)
  Lemma step_rel st s back o : rel st s -> accounted s back ->
    match fls_step s o with
    | Some (s', x) => exists st', fl_step st o = Ok (st', x) /\ rel st' s'
    | None => fl_step st o = UB
    end.
  Proof.
    intros [RL RK RA RF] A. pose proof (accounted_nodup _ _ A) as (N1 & N2 & N3 & N4).
    assert (forall i, (exists h c, lists st !! i = Some h /\ cached s !! i = Some c /\ linked (mem st) h c) \/
                      (lists st !! i = None /\ cached s !! i = None)) as LK.
    { intros i. destruct (lists st !! i) as [h|] eqn:E1, (cached s !! i) as [c|] eqn:E2.
      - left. exists h, c. eauto.
      - apply lookup_lt_Some in E1. apply lookup_ge_None in E2. lia.
      - apply lookup_lt_Some in E2. apply lookup_ge_None in E1. lia.
      - by right. }
    destruct o as [i v|i p|i|i j]; cbn [fls_step fl_step].
    - unfold fl_make, fl_alloc, head_of. destruct (LK i) as [(h & c & E1 & E2 & L)|[E1 E2]]; rewrite E1, E2; [|done].
      cbn [mbind res_bind option_bind]. destruct c as [|p c].
      + cbn in L. subst h. cbn [mbind res_bind]. eexists. rewrite RF. split; [done|].
        constructor; cbn [set_cell lists mem obtained cached alive fresh]; try done; try lia.
        * intros i' h' c' F1 F2. eapply linked_ext; [|eauto]. intros q Hq. apply lookup_insert_ne.
          assert (q < fresh s); [|lia]. apply N3. by eapply elem_of_concat.
        * intros q x. destruct (decide (q = fresh s)) as [->|NE]; [rewrite !lookup_insert|rewrite !lookup_insert_ne by done; apply RA].
          split; congruence.
      + destruct L as (-> & n & Hn & L). unfold next_of. rewrite Hn. cbn [mbind res_bind]. eexists. split; [done|].
        pose proof (concat_nodup_one _ _ _ N1 E2) as [Np Nc]%NoDup_cons.
        constructor; cbn [set_cell set_head lists mem obtained cached alive fresh]; try done.
        * by rewrite !insert_length.
        * intros i' h' c' F1 F2. destruct (decide (i = i')) as [<-|NE].
          -- rewrite list_lookup_insert in F1 by (by eapply lookup_lt_Some).
             rewrite list_lookup_insert in F2 by (by eapply lookup_lt_Some). injection F1 as <-. injection F2 as <-.
             eapply linked_ext; [|exact L]. intros q Hq. apply lookup_insert_ne. congruence.
          -- rewrite list_lookup_insert_ne in F1 by done. rewrite list_lookup_insert_ne in F2 by done.
             eapply linked_ext; [|eauto]. intros q Hq. apply lookup_insert_ne. intros <-. apply NE.
             eapply concat_nodup_same; [exact N1|exact E2|exact F2|apply elem_of_list_here|done].
        * intros q x. destruct (decide (q = p)) as [->|NE]; [rewrite !lookup_insert|rewrite !lookup_insert_ne by done; apply RA].
          split; congruence.
    - unfold fl_destroy. destruct (alive s !! p) as [x|] eqn:Ep.
      + rewrite (proj2 (RA p x) Ep). cbn [mbind option_bind]. unfold head_of.
        destruct (LK i) as [(h & c & E1 & E2 & L)|[E1 E2]]; rewrite E1, E2; [|done].
        cbn [mbind res_bind option_bind]. eexists. split; [done|].
        assert (forall j d, cached s !! j = Some d -> p ∉ d) as Np.
        { intros j d Ed Hp. rewrite (N2 p) in Ep; [done|]. by eapply elem_of_concat. }
        constructor; cbn [set_cell set_head lists mem obtained cached alive fresh]; try done.
        * by rewrite !insert_length.
        * intros i' h' c' F1 F2. destruct (decide (i = i')) as [<-|NE].
          -- rewrite list_lookup_insert in F1 by (by eapply lookup_lt_Some).
             rewrite list_lookup_insert in F2 by (by eapply lookup_lt_Some). injection F1 as <-. injection F2 as <-.
             split; [done|]. exists h. rewrite lookup_insert. split; [done|].
             eapply linked_ext; [|exact L]. intros q Hq. apply lookup_insert_ne. intros ->. by eapply Np.
          -- rewrite list_lookup_insert_ne in F1 by done. rewrite list_lookup_insert_ne in F2 by done.
             eapply linked_ext; [|eauto]. intros q Hq. apply lookup_insert_ne. intros ->. by eapply Np.
        * intros q y. destruct (decide (q = p)) as [->|NE].
          -- rewrite lookup_insert, lookup_delete. done.
          -- rewrite lookup_insert_ne, lookup_delete_ne by done. apply RA.
      + cbn [mbind option_bind]. destruct (mem st !! p) as [[n|x]|] eqn:Em; [done| |done].
        apply RA in Em. congruence.
    - unfold fl_clear. destruct (LK i) as [(h & c & E1 & E2 & L)|[E1 E2]]; rewrite E2; cbn [mbind option_bind].
      2:{ destruct (size (mem st)); cbn [clear_loop]; unfold head_of; by rewrite E1. }
      pose proof (concat_nodup_one _ _ _ N1 E2) as Nc.
      destruct (clear_loop_ok c (size (mem st)) st i h) as (m & -> & M1 & M2); [done..|by eapply linked_size|].
      cbn [mbind res_bind]. eexists. split; [done|].
      constructor; cbn [lists mem obtained cached alive fresh]; try done.
      + by rewrite !insert_length.
      + intros i' h' c' F1 F2. destruct (decide (i = i')) as [<-|NE].
        * rewrite list_lookup_insert in F1 by (by eapply lookup_lt_Some).
          rewrite list_lookup_insert in F2 by (by eapply lookup_lt_Some). injection F1 as <-. by injection F2 as <-.
        * rewrite list_lookup_insert_ne in F1 by done. rewrite list_lookup_insert_ne in F2 by done.
          eapply linked_ext; [|eauto]. intros q Hq. apply M2. intros Hc. apply NE. by eapply concat_nodup_same.
      + intros q y. destruct (decide (q ∈ c)) as [Hq|Hq].
        * rewrite M1 by done. split; [done|]. rewrite N2; [done|]. by apply (elem_of_concat _ _ _ _ E2).
        * rewrite M2 by done. apply RA.
    - unfold fl_move, fl_clear. destruct (LK i) as [(h & c & E1 & E2 & L)|[E1 E2]]; rewrite E2; cbn [mbind option_bind].
      2:{ destruct (size (mem st)); cbn [clear_loop]; unfold head_of; by rewrite E1. }
      pose proof (concat_nodup_one _ _ _ N1 E2) as Nc.
      destruct (clear_loop_ok c (size (mem st)) st i h) as (m & -> & M1 & M2); [done..|by eapply linked_size|].
      cbn [mbind res_bind]. unfold head_of. cbn [lists].
      destruct (LK j) as [(h2 & d & E3 & E4 & L2)|[E3 E4]]; rewrite E4; cbn [mbind option_bind].
      2:{ rewrite list_lookup_insert_ne; [by rewrite E3|]. intros ->. congruence. }
      assert (<[i := None]> (lists st) !! j = Some (if decide (i = j) then None else h2)) as E5.
      { case_decide as D; [subst; apply list_lookup_insert; by eapply lookup_lt_Some|by rewrite list_lookup_insert_ne]. }
      rewrite E5. cbn [mbind res_bind]. eexists. split; [done|].
      constructor; cbn [set_head lists mem obtained cached alive fresh]; try done.
      + by rewrite !insert_length.
      + intros i' h' c' F1 F2. destruct (decide (j = i')) as [<-|NEj].
        * rewrite list_lookup_insert in F1 by (rewrite ?insert_length; by eapply lookup_lt_Some).
          rewrite list_lookup_insert in F2 by (rewrite ?insert_length; by eapply lookup_lt_Some).
          injection F1 as <-. by injection F2 as <-.
        * rewrite list_lookup_insert_ne in F1 by done. rewrite list_lookup_insert_ne in F2 by done.
          destruct (decide (i = i')) as [<-|NE].
          -- rewrite list_lookup_insert in F1 by (rewrite ?insert_length; by eapply lookup_lt_Some).
             rewrite list_lookup_insert in F2 by (rewrite ?insert_length; by eapply lookup_lt_Some).
             injection F1 as <-. injection F2 as <-. case_decide; [congruence|].
             eapply linked_ext; [|exact L2]. intros q Hq. apply M2. intros Hc. apply NEj.
             eapply concat_nodup_same; [exact N1|exact E4|exact E2|exact Hq|exact Hc].
          -- rewrite !list_lookup_insert_ne in F1 by done. rewrite list_lookup_insert_ne in F2 by done.
             eapply linked_ext; [|eauto]. intros q Hq. apply M2. intros Hc. apply NE. by eapply concat_nodup_same.
      + intros q y. destruct (decide (q ∈ c)) as [Hq|Hq].
        * rewrite M1 by done. split; [done|]. rewrite N2; [done|]. by apply (elem_of_concat _ _ _ _ E2).
        * rewrite M2 by done. apply RA.
  Qed.

  Lemma run_rel os : forall st s back, rel st s -> accounted s back ->
    match fls_run s os with
    | Some (s', xs) => exists st', fl_run st os = Ok (st', xs) /\ rel st' s' /\ accounted s' (back ++ returned xs)
    | None => fl_run st os = UB
    end.
  Proof.
    induction os as [|o os IH]; intros st s back R A; cbn [fls_run fl_run].
    - exists st. split_and!; try done. unfold returned. cbn. by rewrite app_nil_r.
    - pose proof (step_rel _ _ _ o R A) as H. destruct (fls_step s o) as [[s1 x]|] eqn:E; cbn [mbind option_bind].
      2:{ by rewrite H. }
      destruct H as (st1 & -> & R1). cbn [mbind res_bind].
      pose proof (spec_accounted _ _ _ _ _ A E) as A1.
      pose proof (IH _ _ _ R1 A1) as H. destruct (fls_run s1 os) as [[s2 xs]|]; cbn [mbind option_bind].
      2:{ by rewrite H. }
      destruct H as (st2 & -> & R2 & A2). cbn [mbind res_bind]. exists st2. split_and!; try done.
      unfold returned in *. cbn [map List.concat]. by rewrite app_assoc.
  Qed.
  Lemma rel_init n : rel (fl_init n) (fls_init n) /\ accounted (fls_init n) [].
  Proof.
    split.
    - constructor; cbn; [by rewrite !replicate_length| |done|done].
      intros i h c [-> _]%lookup_replicate [-> _]%lookup_replicate. done.
    - unfold accounted. cbn. rewrite map_to_list_empty. cbn. rewrite app_nil_r. induction n; done.
  Qed.
End proofs.

Section history.
  Context {T : Type}.

  Lemma map_keys_delete (m : gmap nat T) p v : m !! p = Some v ->
    (map_to_list m).*1 ≡ₚ p :: (map_to_list (delete p m)).*1.
  Proof.
    intros E. rewrite <- (insert_delete m p v E) at 1. rewrite map_to_list_insert by apply lookup_delete. done.
  Qed.
  Lemma filter_not_in (l : list nat) p : p ∉ l -> filter (fun q => q <> p) l = l.
  Proof.
    induction l as [|a l IH]; intros H; [done|]. apply not_elem_of_cons in H as [H1 H2].
    rewrite filter_cons_True by congruence. by rewrite IH.
  Qed.
  Lemma own_alive (s : fl_spec T) back o s' x l :
    accounted s back -> fls_step s o = Some (s', x) -> l ≡ₚ (map_to_list (alive s)).*1 ->
    own l o x ≡ₚ (map_to_list (alive s')).*1.
  Proof.
    intros A E L. pose proof (accounted_nodup _ _ A) as (N1 & N2 & N3 & N4). destruct o as [i v|i p|i|i j]; cbn in E.
    - destruct (cached s !! i) as [[|p c]|] eqn:Ec; cbn in E; [| |done]; injection E as <- <-; cbn [own alive].
      + rewrite map_to_list_insert; [by rewrite L|]. destruct (alive s !! fresh s) eqn:F; [|done]. apply N4 in F. lia.
      + rewrite map_to_list_insert; [by rewrite L|]. apply N2. eapply elem_of_concat; [exact Ec|apply elem_of_list_here].
    - destruct (alive s !! p) as [v|] eqn:Ep; cbn in E; [|done]. destruct (cached s !! i) as [c|]; cbn in E; [|done].
      injection E as <- <-. cbn [own alive]. rewrite L, (map_keys_delete _ _ _ Ep).
      rewrite filter_cons_False by auto. rewrite filter_not_in; [done|].
      intros ([q y] & -> & H%elem_of_map_to_list)%elem_of_list_fmap. cbn in H. by rewrite lookup_delete in H.
    - destruct (cached s !! i) as [c|]; cbn in E; [|done]. by injection E as <- <-.
    - destruct (cached s !! i) as [c|]; cbn in E; [|done]. destruct (cached s !! j) as [d|]; cbn in E; [|done].
      by injection E as <- <-.
  Qed.
  Lemma owned_alive os : forall (s : fl_spec T) back s' xs l,
    accounted s back -> fls_run s os = Some (s', xs) -> l ≡ₚ (map_to_list (alive s)).*1 ->
    owned l os xs ≡ₚ (map_to_list (alive s')).*1.
  Proof.
    induction os as [|o os IH]; intros s back s' xs l A E L; cbn in E.
    - by injection E as <- <-.
    - destruct (fls_step s o) as [[s1 x]|] eqn:E1; cbn in E; [|done].
      destruct (fls_run s1 os) as [[s2 ys]|] eqn:E2; cbn in E; [|done]. injection E as <- <-. cbn [owned].
      eapply IH; [by eapply spec_accounted|done|]. by eapply own_alive.
  Qed.
  (** From the start: the run of the model seen through the specification. *)
  Lemma run_account n os (st : fl_state T) xs : fl_run (fl_init n) os = Ok (st, xs) ->
    exists s, fls_run (fls_init n) os = Some (s, xs) /\ rel st s /\ accounted s (returned xs) /\
      owned [] os xs ≡ₚ (map_to_list (alive s)).*1.
  Proof.
    intros E. destruct (rel_init (T := T) n) as [R A]. pose proof (run_rel os _ _ _ R A) as H.
    destruct (fls_run (fls_init n) os) as [[s ys]|] eqn:Es; [|congruence].
    destruct H as (st' & E' & R' & A'). rewrite E in E'. injection E' as -> ->. exists s. split_and!; try done.
    eapply owned_alive; [exact A|done|]. cbn. by rewrite map_to_list_empty.
  Qed.
  Lemma fls_run_app os1 : forall (s : fl_spec T) os2, fls_run s (os1 ++ os2) =
    match fls_run s os1 with
    | Some (s1, xs) => match fls_run s1 os2 with Some (s2, ys) => Some (s2, xs ++ ys) | None => None end
    | None => None
    end.
  Proof.
    induction os1 as [|o os1 IH]; intros s os2; cbn [app fls_run].
    - by destruct (fls_run s os2) as [[]|].
    - destruct (fls_step s o) as [[s1 x]|]; cbn [mbind option_bind]; [|done]. rewrite IH.
      destruct (fls_run s1 os1) as [[s2 ys]|]; cbn [mbind option_bind]; [|done].
      by destruct (fls_run s2 os2) as [[s3 zs]|].
  Qed.
  Lemma clear_all k : forall (s : fl_spec T), k <= length (cached s) ->
    exists s' xs, fls_run s (map FLClear (seq 0 k)) = Some (s', xs) /\ length (cached s') = length (cached s) /\
      (forall i, i < k -> cached s' !! i = Some []) /\ (forall i, k <= i -> cached s' !! i = cached s !! i) /\
      alive s' = alive s /\ fresh s' = fresh s.
  Proof.
    induction k as [|k IH]; intros s H.
    - exists s, []. split_and!; try done. lia.
    - destruct (IH s) as (s1 & xs & E & L & C1 & C2 & A & F); [lia|].
      rewrite seq_S, map_app, fls_run_app, E. cbn [map fls_run fls_step Nat.add].
      destruct (lookup_lt_is_Some_2 (cached s1) k) as [c Ec]; [lia|]. rewrite Ec. cbn [mbind option_bind].
      eexists _, _. split; [done|]. cbn [cached alive fresh]. split_and!; try done.
      + by rewrite insert_length.
      + intros i Hi. destruct (decide (i = k)) as [->|]; [apply list_lookup_insert; lia|].
        rewrite list_lookup_insert_ne by lia. apply C1. lia.
      + intros i Hi. rewrite list_lookup_insert_ne by lia. apply C2. lia.
  Qed.
  Lemma concat_nils (l : list (list nat)) : (forall i, i < length l -> l !! i = Some []) -> List.concat l = [].
  Proof.
    induction l as [|a l IH]; intros H; [done|]. cbn. pose proof (H 0 ltac:(cbn; lia)) as E. cbn in E. injection E as ->.
    apply IH. intros i Hi. apply (H (S i)). cbn. lia.
  Qed.
  Lemma fls_len o (s s' : fl_spec T) x : fls_step s o = Some (s', x) -> length (cached s') = length (cached s).
  Proof.
    destruct o as [i v|i p|i|i j]; cbn; intros E.
    - destruct (cached s !! i) as [[|p c]|]; cbn in E; [| |done]; injection E as <- <-; cbn; by rewrite ?insert_length.
    - destruct (alive s !! p) as [v|]; cbn in E; [|done]. destruct (cached s !! i) as [c|]; cbn in E; [|done].
      injection E as <- <-; cbn; by rewrite ?insert_length.
    - destruct (cached s !! i) as [c|]; cbn in E; [|done]. injection E as <- <-; cbn; by rewrite ?insert_length.
    - destruct (cached s !! i) as [c|]; cbn in E; [|done]. destruct (cached s !! j) as [d|]; cbn in E; [|done].
      injection E as <- <-; cbn; by rewrite ?insert_length.
  Qed.
  Lemma fls_run_len os : forall (s s' : fl_spec T) xs, fls_run s os = Some (s', xs) -> length (cached s') = length (cached s).
  Proof.
    induction os as [|o os IH]; intros s s' xs E; cbn in E.
    - by injection E as <- <-.
    - destruct (fls_step s o) as [[s1 x]|] eqn:E1; cbn in E; [|done].
      destruct (fls_run s1 os) as [[s2 ys]|] eqn:E2; cbn in E; [|done]. injection E as <- <-.
      rewrite (IH _ _ _ E2). by eapply fls_len.
  Qed.
  Lemma owned_app os1 : forall (l : list nat) os2 (xs ys : list (fl_out T)), length os1 = length xs ->
    owned l (os1 ++ os2) (xs ++ ys) = owned (owned l os1 xs) os2 ys.
  Proof. induction os1 as [|o os1 IH]; intros l os2 [|x xs] ys L; try done. cbn. apply IH. by injection L. Qed.
End history.

(** ** The pool's name *)
Open Scope Z_scope.
Lemma count_digits_spec fuel : forall i n, 0 <= i < 2 ^ Z.of_nat fuel -> 0 <= n ->
  let r := count_digits fuel i n in
  n <= r /\ i < 10 ^ (r - n) /\ (0 < i -> n < r /\ 10 ^ (r - n - 1) <= i).
Proof.
  induction fuel as [|f IH]; intros i n Hi Hn; cbn [count_digits].
  - change (2 ^ Z.of_nat 0) with 1 in Hi. assert (i = 0) by lia. subst. rewrite Z.sub_diag. cbn. lia.
  - rewrite Nat2Z.inj_succ, Z.pow_succ_r in Hi by lia.
    destruct (0 <? i) eqn:E; [apply Z.ltb_lt in E|apply Z.ltb_ge in E].
    + destruct (IH (i / 10) (n + 1)) as (A & B & C); [|lia|].
      { split; [apply Z.div_pos; lia|]. apply Z.div_lt_upper_bound; lia. }
      set (r := count_digits f (i / 10) (n + 1)) in *. split_and!; [lia| |intros _; split; [lia|]].
      * replace (r - n) with (Z.succ (r - (n + 1))) by lia. rewrite Z.pow_succ_r by lia.
        pose proof (Z.div_mod i 10). pose proof (Z.mod_pos_bound i 10). lia.
      * destruct (Z_lt_dec 0 (i / 10)) as [P|P].
        -- destruct (C P) as [C1 C2]. replace (r - n - 1) with (Z.succ (r - (n + 1) - 1)) by lia.
           rewrite Z.pow_succ_r by lia. pose proof (Z.div_mod i 10). pose proof (Z.mod_pos_bound i 10). lia.
        -- assert (i / 10 = 0) as Z0. { pose proof (Z.div_pos i 10). lia. }
           assert (r = n + 1) as ->.
           { unfold r. rewrite Z0. by destruct f. }
           replace (n + 1 - n - 1) with 0 by lia. cbn. lia.
    + assert (i = 0) by lia. subst. rewrite Z.sub_diag. cbn. lia.
Qed.
Lemma spelled_app ds es : spelled (ds ++ es) = foldl (fun a d => 10 * a + (d - 48)) (spelled ds) es.
Proof. unfold spelled. by rewrite foldl_app. Qed.
Lemma put_digits_spec fuel : forall N n i acc, 0 <= N -> 0 <= n -> n < Z.of_nat fuel -> i + n <= 31 ->
  let ds := put_digits fuel N n i in
  Forall (fun d => 48 <= d <= 57) ds /\ Z.of_nat (length ds) = n /\
  foldl (fun a d => 10 * a + (d - 48)) acc ds = acc * 10 ^ n + N mod 10 ^ n.
Proof.
  induction fuel as [|f IH]; intros N n i acc HN Hn Hf Hi; [lia|]. cbn [put_digits].
  destruct (decide (n = 0)) as [->|].
  - cbn. rewrite Zmod_1_r. split_and!; [done|done|lia].
  - rewrite (proj2 (Z.ltb_lt 0 n)) by lia. rewrite (proj2 (Z.ltb_lt i 31)) by lia. cbn [andb].
    destruct (IH N (n - 1) (i + 1) (10 * acc + (48 + (N / 10 ^ (n - 1)) mod 10 - 48))) as (A & B & C); [lia..|].
    pose proof (Z.mod_pos_bound (N / 10 ^ (n - 1)) 10 ltac:(lia)). split_and!.
    + constructor; [lia|done].
    + cbn [length]. lia.
    + cbn [foldl]. rewrite C.
      assert (0 < 10 ^ (n - 1)) by (apply Z.pow_pos_nonneg; lia).
      replace (10 ^ n) with (10 ^ (n - 1) * 10). 2:{ rewrite Z.mul_comm, <- Z.pow_succ_r by lia. f_equal. lia. }
      rewrite Z.rem_mul_r by lia. ring.
Qed.
Lemma pool_name_spec N : 0 < N < 2 ^ 64 -> exists ds,
  pool_name N = [80; 111; 111; 108; 60] ++ ds ++ [62] /\ Forall (fun d => 48 <= d <= 57) ds /\
  head ds <> Some 48 /\ spelled ds = N.
Proof.
  intros HN. unfold pool_name. set (n := count_digits 64 N 0).
  destruct (count_digits_spec 64 N 0) as (A & B & C); [split; [lia|exact (proj2 HN)]|lia|]. fold n in A, B, C.
  destruct (C ltac:(lia)) as [C1 C2]. rewrite Z.sub_0_r in *. clear C.
  assert (n <= 20).
  { destruct (Z_le_dec n 20); [done|]. exfalso.
    pose proof (Z.pow_le_mono_r 10 20 (n - 1) ltac:(lia) ltac:(lia)).
    assert (2 ^ 64 < 10 ^ 20) by (vm_compute; done). lia. }
  destruct (put_digits_spec 64 N n 5 0) as (D & E & F); [lia..|].
  exists (put_digits 64 N n 5). split_and!; try done.
  - cbn [put_digits]. rewrite (proj2 (Z.ltb_lt 0 n)) by lia. change (5 <? 31) with true. cbn [andb head].
    intros [= G]. assert (1 <= N / 10 ^ (n - 1)).
    { assert (0 < 10 ^ (n - 1)) by (apply Z.pow_pos_nonneg; lia). apply Z.div_le_lower_bound; lia. }
    assert (N / 10 ^ (n - 1) < 10).
    { assert (0 < 10 ^ (n - 1)) by (apply Z.pow_pos_nonneg; lia). apply Z.div_lt_upper_bound; [lia|].
      rewrite Z.mul_comm, <- Z.pow_succ_r by lia. replace (Z.succ (n - 1)) with n by lia. lia. }
    rewrite Z.mod_small in G by lia. lia.
  - unfold spelled. rewrite F. rewrite Z.mod_small by lia. lia.
Qed.
Close Scope Z_scope.
