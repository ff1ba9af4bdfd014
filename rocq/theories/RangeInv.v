(** Search, allocation and release at the level of the block layout. *)
From stdpp Require Import gmap.
From Verif Require Import Word MathModel MathProofs RangeModel RangeSpec RangeProofs.
Open Scope Z_scope.

Definition pad (s alignment : Z) : Z := (- s) mod alignment.
Lemma pad_range s al : 0 < al -> 0 <= pad s al < al.
Proof. intros. apply Z.mod_pos_bound. lia. Qed.
Lemma pad_aligned s al : 0 < al -> (al | s + pad s al).
Proof.
  intros. unfold pad. exists (- (- s / al)). pose proof (Z.div_mod (- s) al). lia.
Qed.
Lemma padding_ok b al : 0 <= b_start b < 2 ^ 64 -> 0 < al <= 2 ^ 64 - 1 -> padding_at b al = Ok (pad (b_start b) al).
Proof.
  intros Hs Ha. unfold padding_at, align. destruct (Z.eqb_spec al 0); [lia|]. cbn [mbind res_bind]. f_equal.
  unfold pad. pose proof (Z.mod_pos_bound (b_start b) al ltac:(lia)).
  destruct (Z.eqb_spec (b_start b mod al) 0) as [E|E].
  - rewrite Z.sub_diag. rewrite Z.mod_opp_l_z by lia. done.
  - rewrite wrap_sub_l. rewrite (wrap_small 64 (al - _)) by (split; lia).
    replace (b_start b + (al - b_start b mod al) - b_start b) with (al - b_start b mod al) by lia.
    rewrite wrap_small by (split; lia). rewrite Z.mod_opp_l_nz by lia. done.
Qed.

Fixpoint consec (s : Z) (lay : list ent) : Prop :=
  match lay with
  | [] => True
  | e :: l => e_start e = s /\ 0 < e_size e /\ consec (s + e_size e) l
  end.
Definition bytes (lay : list ent) : Z := sumZ (map e_size lay).
Lemma bytes_cons e l : bytes (e :: l) = e_size e + bytes l.
Proof. done. Qed.
Lemma bytes_app l1 l2 : bytes (l1 ++ l2) = bytes l1 + bytes l2.
Proof. induction l1 as [|e l1 IH]; [done|]. cbn [app]. rewrite !bytes_cons, IH. lia. Qed.
Lemma consec_app s l1 l2 : consec s (l1 ++ l2) <-> consec s l1 /\ consec (s + bytes l1) l2.
Proof.
  revert s. induction l1 as [|e l1 IH]; intros s; cbn [app consec].
  - unfold bytes. cbn. rewrite Z.add_0_r. tauto.
  - rewrite IH, bytes_cons, Z.add_assoc. tauto.
Qed.
Lemma consec_bounds s lay e : consec s lay -> e ∈ lay -> s <= e_start e /\ 0 < e_size e /\ e_start e + e_size e <= s + bytes lay.
Proof.
  revert s. induction lay as [|a l IH]; intros s; [intros _ []%elem_of_nil|].
  intros (H1 & H2 & H3) H. rewrite bytes_cons.
  assert (0 <= bytes l) as N. { clear -H3. revert H3. generalize (s + e_size a). induction l as [|b l IH]; intros z; [done|]. intros (_ & ? & ?%IH). rewrite bytes_cons. lia. }
  apply elem_of_cons in H as [->|H]; [lia|]. apply (IH _ H3) in H. lia.
Qed.
Lemma consec_len s lay : consec s lay -> Z.of_nat (length lay) <= bytes lay.
Proof.
  revert s. induction lay as [|a l IH]; intros s; [done|]. intros (_ & H & ?%IH). rewrite bytes_cons. cbn [length]. lia.
Qed.

Section ops.
  Context (Buckets : nat) (Bias : Z) (HB : (1 <= Buckets <= 255)%nat) (HBias : 0 <= Bias).
  Notation bidx := (bidx Buckets Bias).
  Notation core := (core Buckets Bias).

  Lemma idx_eq size : 0 < size < 2 ^ 64 ->
    size_to_idx Buckets Bias size = Z.min (Z.max 0 (Z.log2 size - Bias)) (Z.of_nat Buckets - 1).
  Proof.
    intros H. unfold size_to_idx. rewrite log2_spec_Z by (unfold is_u; lia).
    pose proof (Z.log2_nonneg size).
    assert (Z.log2 size < 64) by (apply Z.log2_lt_pow2; lia).
    rewrite (wrap_small 64) by (unfold is_u; lia).
    destruct (Z.leb_spec Bias (Z.log2 size)); rewrite wrap_small by (unfold is_u; lia); lia.
  Qed.
  Lemma bidx_lt size : 0 < size < 2 ^ 64 -> (bidx size < Buckets)%nat.
  Proof. intros H. unfold RangeProofs.bidx. rewrite idx_eq by done. lia. Qed.
  Lemma bidx_mono s1 s2 : 0 < s1 -> s1 <= s2 -> s2 < 2 ^ 64 -> (bidx s1 <= bidx s2)%nat.
  Proof.
    intros. unfold RangeProofs.bidx. rewrite !idx_eq by lia. pose proof (Z.log2_le_mono s1 s2 ltac:(lia)). lia.
  Qed.
  Lemma idx_range size : 0 < size < 2 ^ 64 -> 0 <= size_to_idx Buckets Bias size < Z.of_nat Buckets.
  Proof. intros H. rewrite idx_eq by done. lia. Qed.

  (** ** Search *)
  Fixpoint pick (h : h_t) (size al : Z) (l : list nat) : option (nat * Z) :=
    match l with
    | [] => None
    | p :: l' =>
        match h !! p with
        | Some b => if size + pad (b_start b) al <=? b_size b then Some (p, pad (b_start b) al) else pick h size al l'
        | None => None
        end
    end.
  Definition later (fr : list (list nat)) (i : nat) : list nat := List.concat (drop (S i) fr).
  Lemma later_step fr i l : fr !! S i = Some l -> later fr i = l ++ later fr (S i).
  Proof. intros E. unfold later. by rewrite (drop_S _ _ _ E). Qed.
  Lemma later_end fr i : (length fr <= S i)%nat -> later fr i = [].
  Proof. intros. unfold later. by rewrite drop_ge. Qed.

  Lemma next_bucket_ok st lay fr : core (blocks st) (buckets st) lay fr -> length fr = Buckets ->
    forall fuel idx f0 f, (idx < Buckets)%nat -> (Buckets - 1 - idx <= fuel)%nat -> fr !! idx = Some (f0 ++ f) ->
    exists idx' f0' f', next_bucket Buckets fuel st (head f) (Z.of_nat idx) = Ok (head f', Z.of_nat idx') /\
      (idx' < Buckets)%nat /\ fr !! idx' = Some (f0' ++ f') /\ f ++ later fr idx = f' ++ later fr idx' /\
      (f' = [] -> later fr idx' = []).
  Proof.
    intros C Lf. induction fuel as [|fuel IH]; intros idx f0 f Hi Hf E.
    - exists idx, f0, f. cbn [next_bucket]. split_and!; try done.
      + destruct f; [|done]. cbn [head]. destruct (Z.ltb_spec (Z.of_nat idx) (Z.of_nat Buckets - 1)); [lia|done].
      + intros _. apply later_end. lia.
    - cbn [next_bucket]. destruct f as [|p f].
      + cbn [head]. destruct (Z.ltb_spec (Z.of_nat idx) (Z.of_nat Buckets - 1)).
        * rewrite wrap_small by (unfold is_u; lia). replace (Z.of_nat idx + 1) with (Z.of_nat (S idx)) by lia.
          unfold bucket. rewrite Nat2Z.id.
          destruct (lookup_lt_is_Some_2 fr (S idx)) as [l El]; [lia|].
          destruct (c_bk _ _ _ _ _ _ C _ _ El) as [-> _]. cbn [mbind res_bind].
          destruct (IH (S idx) [] l) as (i' & g0 & g & R1 & R2 & R3 & R4 & R5); [lia|lia|done|].
          exists i', g0, g. split_and!; try done. cbn [app]. by rewrite (later_step _ _ _ El).
        * exists idx, f0, []. split_and!; try done. intros _. apply later_end. lia.
      + exists idx, f0, (p :: f). by split_and!.
  Qed.

  Lemma search_ok st lay fr size al cap : core (blocks st) (buckets st) lay fr -> length fr = Buckets ->
    consec 0 lay -> bytes lay = cap -> cap < 2 ^ 64 -> request size al ->
    forall n idx f0 f, (idx < Buckets)%nat -> fr !! idx = Some (f0 ++ f) -> (f = [] -> later fr idx = []) ->
      (length (f ++ later fr idx) <= n)%nat ->
      search Buckets n st (head f) (Z.of_nat idx) size al = Ok (pick (blocks st) size al (f ++ later fr idx)).
  Proof.
    intros C Lf Cs Hc Hcap (Rs & Ra & Ro). induction n as [|n IH]; intros idx f0 f Hi E Hn Hf.
    - destruct f as [|p f]; [|cbn in Hf; lia]. rewrite Hn by done. done.
    - destruct f as [|p f]; [rewrite Hn by done; done|]. cbn [search head app].
      assert (p ∈ f0 ++ p :: f) as Hp by (apply elem_of_app; right; apply elem_of_list_here).
      apply (c_fr _ _ _ _ _ _ C _ _ _ E) in Hp as (e & Ie & <- & Fe & Be).
      destruct (core_here _ _ _ _ _ _ _ C Ie) as (b & Eb & Db). injection Db as Ds Dz Do Df.
      rewrite (load_ok _ _ b) by done. cbn [mbind res_bind pick]. rewrite Eb.
      pose proof (consec_bounds _ _ _ Cs Ie). pose proof (pad_range (b_start b) al Ra).
      rewrite padding_ok by lia. cbn [mbind res_bind].
      rewrite wrap_small by (unfold is_u; lia).
      destruct (Z.leb_spec (size + pad (b_start b) al) (b_size b)); [done|].
      destruct (c_bk _ _ _ _ _ _ C _ _ E) as [_ Sg]. apply seg_mid in Sg as (_ & Sg & _).
      unfold FL in Sg. rewrite Eb in Sg. cbn in Sg. injection Sg as _ Nf.
      replace (hd f None) with (head f) in Nf by (by destruct f). rewrite Nf.
      assert (fr !! idx = Some ((f0 ++ [e_id e]) ++ f)) as E2 by (by rewrite <- app_assoc).
      destruct (next_bucket_ok _ _ _ C Lf Buckets idx (f0 ++ [e_id e]) f Hi ltac:(lia) E2) as (i' & g0 & g & R1 & R2 & R3 & R4 & R5).
      rewrite R1. cbn [mbind res_bind]. rewrite R4. apply (IH i' g0 g); try done.
      rewrite <- R4. cbn in Hf. lia.
  Qed.

  Lemma free_concat_nodup h bk lay fr : core h bk lay fr -> NoDup (List.concat fr).
  Proof.
    intros C. assert (forall j k l m p, fr !! j = Some l -> fr !! k = Some m -> p ∈ l -> p ∈ m -> j = k) as A.
    { intros. by eapply free_lists_apart. }
    pose proof (c_frnd _ _ _ _ _ _ C) as B. clear C. induction fr as [|l fr IH]; [apply NoDup_nil_2|]. cbn.
    apply NoDup_app. split_and!.
    - by apply (B 0%nat).
    - intros p Hp Hq. assert (exists k m, fr !! k = Some m /\ p ∈ m) as (k & m & Hk & Hm).
      { clear -Hq. induction fr as [|m fr IH]; cbn in Hq; [by apply elem_of_nil in Hq|].
        apply elem_of_app in Hq as [H|H]; [by exists 0%nat, m|]. destruct (IH H) as (k & m' & ? & ?). by exists (S k), m'. }
      assert (0 = S k)%nat; [|done]. by eapply (A 0%nat (S k)).
    - apply IH; [intros j k l' m' p Hj Hk Hl Hm; assert (S j = S k); [by eapply (A (S j) (S k))|congruence]|].
      intros k m Hk. by apply (B (S k)).
  Qed.
  Lemma elem_of_concat (fr : list (list nat)) p : p ∈ List.concat fr <-> exists k l, fr !! k = Some l /\ p ∈ l.
  Proof.
    induction fr as [|m fr IH]; cbn.
    - split; [intros []%elem_of_nil|]. by intros (k & l & H & _).
    - rewrite elem_of_app, IH. split.
      + intros [H|(k & l & H1 & H2)]; [by exists 0%nat, m|by exists (S k), l].
      + intros ([|k] & l & H1 & H2); cbn in H1; [injection H1 as ->; by left|right; eauto].
  Qed.
  Lemma free_elems h bk lay fr p : core h bk lay fr -> length fr = Buckets -> consec 0 lay -> bytes lay < 2 ^ 64 ->
    p ∈ List.concat fr <-> exists e, e ∈ lay /\ e_id e = p /\ e_free e = true.
  Proof.
    intros C Lf Cs Hb. rewrite elem_of_concat. split.
    - intros (k & l & Hk & Hp). apply (c_fr _ _ _ _ _ _ C _ _ _ Hk) in Hp as (e & ? & ? & ? & _). eauto.
    - intros (e & Ie & Ee & Fe). pose proof (consec_bounds _ _ _ Cs Ie).
      destruct (lookup_lt_is_Some_2 fr (bidx (e_size e))) as [l El]; [rewrite Lf; apply bidx_lt; lia|].
      exists (bidx (e_size e)), l. split; [done|]. apply (c_fr _ _ _ _ _ _ C _ _ _ El). eauto.
  Qed.
  Lemma concat_size h bk lay fr : core h bk lay fr -> (length (List.concat fr) <= base.size h)%nat.
  Proof.
    intros C. rewrite <- size_dom. rewrite <- (size_list_to_set (C := gset nat)) by (by eapply free_concat_nodup).
    apply subseteq_size. intros p Hp%elem_of_list_to_set. apply elem_of_dom.
    apply elem_of_concat in Hp as (k & l & Hk & Hp). apply (c_fr _ _ _ _ _ _ C _ _ _ Hk) in Hp as (e & Ie & <- & _).
    destruct (core_here _ _ _ _ _ _ _ C Ie) as (b & -> & _). by eexists.
  Qed.

  (** The candidates: the free blocks of the lists at or above the request's. *)
  Definition candidates (fr : list (list nat)) (size : Z) : list nat := List.concat (drop (bidx size) fr).

  Lemma first_bucket_ok st lay fr : core (blocks st) (buckets st) lay fr -> length fr = Buckets ->
    forall n idx, (idx <= Buckets)%nat -> (Buckets - idx <= n)%nat ->
    (first_bucket Buckets n st (Z.of_nat idx) = Ok None /\ List.concat (drop idx fr) = []) \/
    (exists idx' l, first_bucket Buckets n st (Z.of_nat idx) = Ok (Some (Z.of_nat idx')) /\ (idx' < Buckets)%nat /\
      fr !! idx' = Some l /\ l <> [] /\ List.concat (drop idx fr) = l ++ later fr idx').
  Proof.
    intros C Lf. induction n as [|n IH]; intros idx Hi Hn; cbn [first_bucket].
    - left. destruct (Z.ltb_spec (Z.of_nat idx) (Z.of_nat Buckets)); [lia|]. by rewrite drop_ge by lia.
    - destruct (Z.ltb_spec (Z.of_nat idx) (Z.of_nat Buckets)); [|left; by rewrite drop_ge by lia].
      destruct (lookup_lt_is_Some_2 fr idx) as [l El]; [lia|]. unfold bucket. rewrite Nat2Z.id.
      destruct (c_bk _ _ _ _ _ _ C _ _ El) as [-> _]. cbn [mbind res_bind].
      assert (List.concat (drop idx fr) = l ++ later fr idx) as Ed by (by rewrite (drop_S _ _ _ El)).
      destruct l as [|p l].
      + cbn [head]. rewrite wrap_small by (unfold is_u; lia). replace (Z.of_nat idx + 1) with (Z.of_nat (S idx)) by lia.
        rewrite Ed. apply IH; lia.
      + right. exists idx, (p :: l). split_and!; try done. lia.
  Qed.
  Lemma find_ok st lay fr size al cap : core (blocks st) (buckets st) lay fr -> length fr = Buckets ->
    consec 0 lay -> bytes lay = cap -> cap < 2 ^ 64 -> request size al ->
    find_block Buckets Bias st size al = Ok (pick (blocks st) size al (candidates fr size)).
  Proof.
    intros C Lf Cs Hc Hcap R. unfold find_block, candidates. destruct R as (R1 & R2 & R3).
    pose proof (idx_range size ltac:(lia)) as Ix.
    rewrite <- (Z2Nat.id (size_to_idx Buckets Bias size)) by lia. fold (bidx size).
    destruct (first_bucket_ok _ _ _ C Lf Buckets (bidx size)) as [[-> ->]|(i & l & -> & Hi & El & Nl & ->)];
      [pose proof (bidx_lt size ltac:(lia)); lia|lia|done|].
    cbn [mbind res_bind]. unfold bucket. rewrite Nat2Z.id. destruct (c_bk _ _ _ _ _ _ C _ _ El) as [-> _]. cbn [mbind res_bind].
    eapply search_ok; try done.
    - by rewrite (app_nil_l l).
    - pose proof (concat_size _ _ _ _ C) as Sz. rewrite <- (take_drop i fr) in Sz.
      rewrite concat_app, app_length in Sz. rewrite (drop_S _ _ _ El) in Sz. cbn in Sz. unfold later. cbn. lia.
  Qed.

  Lemma pick_some h bk lay fr size al l p d : core h bk lay fr ->
    (forall q, q ∈ l -> exists e, e ∈ lay /\ e_id e = q /\ e_free e = true) ->
    pick h size al l = Some (p, d) ->
    exists e, e ∈ lay /\ e_id e = p /\ e_free e = true /\ d = pad (e_start e) al /\ size + d <= e_size e.
  Proof.
    intros C. induction l as [|q l IH]; intros Hl; [done|]. cbn [pick].
    destruct (Hl q) as (e & Ie & <- & Fe); [apply elem_of_list_here|].
    destruct (core_here _ _ _ _ _ _ _ C Ie) as (b & -> & Db). injection Db as Ds Dz Do Df.
    destruct (Z.leb_spec (size + pad (b_start b) al) (b_size b)).
    - intros [= <- <-]. exists e. rewrite <- Ds, <- Dz. done.
    - apply IH. intros r Hr. apply Hl. by apply elem_of_list_further.
  Qed.
  Lemma pick_none h bk lay fr size al l : core h bk lay fr ->
    (forall q, q ∈ l -> exists e, e ∈ lay /\ e_id e = q /\ e_free e = true) ->
    pick h size al l = None -> forall e, e ∈ lay -> e_id e ∈ l -> e_size e < size + pad (e_start e) al.
  Proof.
    intros C. induction l as [|q l IH]; intros Hl; [by intros _ e _ []%elem_of_nil|]. cbn [pick].
    destruct (Hl q) as (e & Ie & <- & Fe); [apply elem_of_list_here|].
    destruct (core_here _ _ _ _ _ _ _ C Ie) as (b & -> & Db). injection Db as Ds Dz Do Df.
    destruct (Z.leb_spec (size + pad (b_start b) al) (b_size b)); [done|].
    intros Hn a Ia [Ea|Ha]%elem_of_cons.
    - assert (a = e) as -> by (eapply ids_inj; [apply (c_nodup _ _ _ _ _ _ C)|done|done|done]). by rewrite <- Ds, <- Dz.
    - apply IH; try done. intros r Hr. apply Hl. by apply elem_of_list_further.
  Qed.

  (** ** Statistics of a layout *)
  Definition frees (lay : list ent) := filter (fun e => e_free e = true) lay.
  Definition used (lay : list ent) := filter (fun e => e_free e = false) lay.
  Definition lengths (fr : list (list nat)) : list Z := map (fun l => Z.of_nat (length l)) fr.
  Definition stats_of (lay : list ent) (fr : list (list nat)) (cap : Z) (t : totals) : stats :=
    mk_stats (bytes (frees lay)) (bytes (used lay)) (Z.of_nat (length (frees lay))) (Z.of_nat (length (used lay)))
      (lengths fr) (peak t) (wrap 64 (n_frees t)) (wrap 64 (n_allocs t)) (wrap 64 (bytes_free t)) (wrap 64 (bytes_alloc t)) cap.
  Lemma frees_app l1 l2 : frees (l1 ++ l2) = frees l1 ++ frees l2.
  Proof. apply filter_app. Qed.
  Lemma used_app l1 l2 : used (l1 ++ l2) = used l1 ++ used l2.
  Proof. apply filter_app. Qed.
  Lemma frees_cons e l : frees (e :: l) = if e_free e then e :: frees l else frees l.
  Proof. unfold frees. rewrite filter_cons. destruct (e_free e); [by rewrite decide_True|by rewrite decide_False]. Qed.
  Lemma used_cons e l : used (e :: l) = if e_free e then used l else e :: used l.
  Proof. unfold used. rewrite filter_cons. destruct (e_free e); [by rewrite decide_False|by rewrite decide_True]. Qed.
  Lemma lengths_insert fr k l l' d : fr !! k = Some l -> Z.of_nat (length l') = Z.of_nat (length l) + d ->
    Z.of_nat (length l') < 2 ^ 64 ->
    alter (fun n => wrap 64 (n + d)) k (lengths fr) = lengths (<[k := l']> fr).
  Proof.
    intros E D B. revert k E. induction fr as [|a fr IH]; intros [|k] E; try done.
    - cbn in E. injection E as ->. cbn. f_equal. rewrite <- D. rewrite wrap_small by (unfold is_u; lia). done.
    - cbn in E. cbn. f_equal. by apply IH.
  Qed.
  Lemma free_lists_short h bk lay fr k l : core h bk lay fr -> fr !! k = Some l -> (length l <= length lay)%nat.
  Proof.
    intros C E. rewrite <- (map_length e_id lay). apply submseteq_length, NoDup_submseteq; [by eapply C|].
    intros p Hp. apply (c_fr _ _ _ _ _ _ C _ _ _ E) in Hp as (e & Ie & <- & _). by apply ids_elem.
  Qed.

  (** ** Allocation *)
  Definition rest_of (n : Z) (e : ent) (q : nat) : list ent :=
    if n <? e_size e then [mk_ent q (e_start e + n) (e_size e - n) 0 true] else [].
  Definition taken (n d : Z) (e : ent) : ent := mk_ent (e_id e) (e_start e) n (e_start e + d) false.

  Definition set_buckets (bs : list Z) (s : stats) : stats :=
    mk_stats (free_size s) (allocated_size s) (free_blocks s) (allocated_blocks s) bs (high_water s)
      (total_frees s) (total_allocs s) (total_free_size s) (total_alloc_size s) (total_capacity s).

  Lemma alloc_some st l1 e l2 fr cap size al d : core (blocks st) (buckets st) (l1 ++ e :: l2) fr ->
    length fr = Buckets -> consec 0 (l1 ++ e :: l2) -> bytes (l1 ++ e :: l2) = cap -> cap < 2 ^ 64 -> request size al ->
    (forall p, p ∈ ids (l1 ++ e :: l2) -> (p < made st)%nat) -> bucket_sizes (st_stats st) = lengths fr ->
    e_free e = true -> d = pad (e_start e) al -> size + d <= e_size e ->
    find_block Buckets Bias st size al = Ok (Some (e_id e, d)) ->
    exists st' fr' f1 f2, fr !! bidx (e_size e) = Some (f1 ++ e_id e :: f2) /\
      allocate Buckets Bias st size al = Ok (st', Some (e_id e)) /\
      core (blocks st') (buckets st') (l1 ++ taken (size + d) d e :: rest_of (size + d) e (made st) ++ l2) fr' /\
      made st' = (made st + length (rest_of (size + d) e (made st)))%nat /\
      st_stats st' = count_alloc (size + d) (add_free_blocks (Z.of_nat (length (rest_of (size + d) e (made st))))
        (set_buckets (lengths fr') (st_stats st))) /\
      (let fr1 := <[bidx (e_size e) := f1 ++ f2]> fr in
       if size + d <? e_size e then exists l', fr1 !! bidx (e_size e - (size + d)) = Some l' /\
         fr' = <[bidx (e_size e - (size + d)) := made st :: l']> fr1
       else fr' = fr1).
  Proof.
    intros C Lf Cs Hb Hc (R1 & R2 & R3) Hm Es Fe Ed Hfit Hfind.
    assert (e ∈ l1 ++ e :: l2) as Ie by (apply elem_of_app; right; apply elem_of_list_here).
    pose proof (consec_bounds _ _ _ Cs Ie) as Bd. pose proof (pad_range (e_start e) al R2) as Pd. rewrite <- Ed in Pd.
    assert (forall k l, fr !! k = Some l -> Z.of_nat (length l) < 2 ^ 64) as Short.
    { intros k l Hl. pose proof (free_lists_short _ _ _ _ _ _ C Hl). pose proof (consec_len _ _ Cs). lia. }
    destruct (remove_ok Buckets Bias st l1 e l2 fr C Fe Lf) as (f1 & f2 & st1 & El & Rm & C1 & St1 & M1).
    { apply bidx_lt. lia. }
    unfold allocate. destruct (Z.eqb_spec size 0); [lia|]. destruct (Z.eqb_spec al 0); [lia|].
    cbn [negb andb assert_ mbind res_bind]. rewrite Hfind. cbn [mbind res_bind]. rewrite Rm. cbn [mbind res_bind].
    set (e1 := with_free false e) in *.
    assert (e1 ∈ l1 ++ e1 :: l2) as Ie1 by (apply elem_of_app; right; apply elem_of_list_here).
    destruct (core_here _ _ _ _ _ _ _ C1 Ie1) as (b & Eb & Db). injection Db as Ds Dz Do Df. cbn in Ds, Dz, Do, Df.
    change (e_id e1) with (e_id e) in Eb.
    rewrite (load_ok _ _ b) by done. cbn [mbind res_bind]. rewrite store_ok by (by rewrite Eb). cbn [mbind res_bind].
    rewrite Ds, (wrap_small 64 (e_start e + d)) by (unfold is_u; lia).
    set (st2 := mk_ra (alter (set_offset (e_start e + d)) (e_id e) (blocks st1)) (buckets st1) (st_stats st1) (made st1)).
    assert (core (blocks st2) (buckets st2) (l1 ++ with_off (e_start e + d) e1 :: l2) (<[bidx (e_size e) := f1 ++ f2]> fr)) as C2.
    { eapply core_replace; [exact C1|done|done|done|..]; unfold st2; cbn [blocks].
      - intros q. unfold PL. by apply fld_same.
      - intros q. unfold FL. by apply fld_same.
      - intros q Nq. apply fld_other. change (e_id e1) with (e_id e) in Nq. congruence.
      - change (e_id e1) with (e_id e). rewrite fld_alter, Eb. cbn. unfold dat, edat. cbn. by rewrite Ds, Dz, Df. }
    set (e2 := with_off (e_start e + d) e1) in *.
    assert (blocks st2 !! e_id e = Some (set_offset (e_start e + d) b)) as Eb2.
    { unfold st2. cbn. by rewrite lookup_alter, Eb. }
    assert (st_stats st2 = st_stats st1) as St2 by done.
    assert (made st2 = made st1) as M2 by done.
    fold st2. clearbody st2.
    unfold split. rewrite (load_ok _ _ (set_offset (e_start e + d) b)) by done. cbn [mbind res_bind set_offset b_size b_start b_next].
    rewrite Dz, Ds, !(wrap_small 64 (size + d)) by (unfold is_u; lia).
    unfold rest_of. destruct (Z.ltb_spec (size + d) (e_size e)) as [Lt|Ge].
    - set (q := made st2). assert (q = made st) as Eq by (unfold q; by rewrite M2, M1).
      rewrite (wrap_small 64 (e_size e - size - d)) by (unfold is_u; lia).
      rewrite (wrap_small 64 (e_start e + size + d)) by (unfold is_u; lia).
      unfold make. fold q. cbn beta iota.
      assert (blocks st2 !! q = None) as Nq.
      { destruct (blocks st2 !! q) eqn:E; [|done]. exfalso.
        assert (q ∈ ids (l1 ++ e2 :: l2)) as Hq by (apply (c_dom _ _ _ _ _ _ C2); by rewrite E).
        rewrite (ids_replace l1 e e2) in Hq by done. apply Hm in Hq. lia. }
      assert (q <> e_id e) as Nqe by congruence.
      pose proof (c_phys _ _ _ _ _ _ C2) as P. rewrite ids_app in P. cbn [ids map] in P. apply seg_mid in P as (_ & P & _).
      change (e_id e2) with (e_id e) in P. unfold PL in P. rewrite Eb2 in P. cbn in P. injection P as _ Pn.
      change (map e_id l2) with (ids l2) in Pn. rewrite Pn.
      set (nb := mk_block 0 (e_size e - size - d) (e_start e + size + d) (hd (ids l2) None) (Some (e_id e)) None None false).
      set (en := mk_ent q (e_start e + (size + d)) (e_size e - (size + d)) 0 false).
      rewrite store_ok by (cbn; rewrite lookup_insert_ne by done; by rewrite Eb2). cbn [mbind res_bind blocks buckets st_stats made].
      rewrite store_opt.
      2:{ intros r Hr. cbn. apply some_alter. assert (r ∈ ids l2) as Hr2 by (destruct (ids l2); [done|injection Hr as ->; apply elem_of_list_here]).
          apply elem_of_list_fmap in Hr2 as (a & -> & Ia). rewrite lookup_insert_is_Some. destruct (decide (q = e_id a)); [by left|right; split; [done|]].
          assert (a ∈ l1 ++ e2 :: l2) as Ia' by (apply elem_of_app; right; by apply elem_of_list_further).
          destruct (core_here _ _ _ _ _ _ _ C2 Ia') as (b' & -> & _). by eexists. }
      cbn [mbind res_bind blocks buckets st_stats made].
      rewrite store_ok. 2:{ cbn. rewrite some_alter_opt, some_alter, lookup_insert_ne by done. by rewrite Eb2. }
      cbn [mbind res_bind blocks buckets st_stats made].
      change (alter (set_next (Some q)) (e_id e) _) with (split_heap (blocks st2) (e_id e) q (hd (ids l2) None) nb (size + d)).
      assert (core (split_heap (blocks st2) (e_id e) q (hd (ids l2) None) nb (size + d)) (buckets st2)
               (l1 ++ with_size (size + d) e2 :: en :: l2) (<[bidx (e_size e) := f1 ++ f2]> fr)) as C3.
      { change (e_id e) with (e_id e2). apply split_core; try done. unfold edat, dat, en, nb. cbn.
        replace (e_start e + (size + d)) with (e_start e + size + d) by lia.
        by replace (e_size e - (size + d)) with (e_size e - size - d) by lia. }
      set (st3 := mk_ra (split_heap (blocks st2) (e_id e) q (hd (ids l2) None) nb (size + d)) (buckets st2) (st_stats st2) (S q)).
      set (fr1 := <[bidx (e_size e) := f1 ++ f2]> fr) in *.
      destruct (lookup_lt_is_Some_2 fr1 (bidx (e_size en))) as [l' El'].
      { unfold fr1. rewrite insert_length, Lf. apply bidx_lt. unfold en. cbn. lia. }
      replace (l1 ++ with_size (size + d) e2 :: en :: l2) with ((l1 ++ [with_size (size + d) e2]) ++ en :: l2) in C3 by (by rewrite <- app_assoc).
      destruct (insert_ok Buckets Bias st3 _ en l2 fr1 l' C3 eq_refl El') as (st4 & Ins & C4 & St4 & M4).
      change (e_id en) with q in Ins, C4. fold st3. rewrite Ins. cbn [mbind res_bind].
      eexists _, _, f1, f2. split_and!; [exact El|reflexivity| | | |].
      + rewrite <- app_assoc in C4. cbn [app] in C4. rewrite <- Eq. cbn [app]. exact C4.
      + cbn [with_stats made length]. rewrite M4. unfold st3. cbn. lia.
      + cbn [with_stats st_stats length]. f_equal. f_equal. rewrite St4. unfold st3. cbn [st_stats]. rewrite St2, St1.
        unfold add_bucket_size, set_buckets. cbn. f_equal. rewrite Es.
        fold (bidx (e_size e)).
        rewrite (lengths_insert fr _ _ (f1 ++ f2) (-1) El); [|rewrite !app_length; cbn; lia|apply Short in El; rewrite !app_length in *; cbn in El; lia].
        fold fr1. fold (bidx (e_size e - (size + d))).
        apply (lengths_insert fr1 _ l'); [exact El'|cbn; lia|].
        pose proof (consec_len _ _ Cs) as Cl.
        assert (Z.of_nat (length l') <= Z.of_nat (length (l1 ++ l2))).
        { assert (length l' <= length (l1 ++ l2))%nat; [|lia].
          rewrite <- (map_length e_id (l1 ++ l2)). apply submseteq_length, NoDup_submseteq; [by eapply C3|].
          intros p Hp. apply (c_fr _ _ _ _ _ _ C3 _ _ _ El') in Hp as (a & Ia & <- & Fa & _).
          rewrite <- app_assoc in Ia. cbn in Ia. apply elem_of_app in Ia as [?|[->|[->|?]%elem_of_cons]%elem_of_cons]; try done;
            apply elem_of_list_fmap; exists a; (split; [done|]); apply elem_of_app; tauto. }
        rewrite !app_length in *. cbn [length] in *. lia.
      + cbn zeta. exists l'. rewrite <- Eq. split; [exact El'|done].
    - assert (size + d = e_size e) as Ez by lia. cbn [mbind res_bind].
      eexists _, _, f1, f2. split_and!; [exact El|reflexivity| | | |].
      + cbn [app]. unfold taken. rewrite Ez. exact C2.
      + cbn. rewrite M2. lia.
      + cbn [with_stats st_stats length]. rewrite St2, St1. unfold count_alloc, add_free_blocks, add_bucket_size, set_buckets. cbn.
        rewrite Es, Z.add_0_r, wrap_sub_l. f_equal. fold (bidx (e_size e)).
        apply (lengths_insert fr _ _ (f1 ++ f2) (-1) El); [rewrite !app_length; cbn; lia|].
        apply Short in El; rewrite !app_length in *; cbn in El; lia.
      + done.
  Qed.

  (** ** Free lists as functions *)
  Definition rem (k p : nat) (fr : list (list nat)) : list (list nat) := alter (filter (fun q => q <> p)) k fr.
  Definition ins (k p : nat) (fr : list (list nat)) : list (list nat) := alter (cons p) k fr.
  Lemma filter_other (l : list nat) p : p ∉ l -> filter (fun q => q <> p) l = l.
  Proof.
    induction l as [|a l IH]; intros H; [done|]. apply not_elem_of_cons in H as [H1 H2].
    rewrite filter_cons_True by congruence. by rewrite IH.
  Qed.
  Lemma rem_eq fr k p f1 f2 : fr !! k = Some (f1 ++ p :: f2) -> NoDup (f1 ++ p :: f2) -> <[k := f1 ++ f2]> fr = rem k p fr.
  Proof.
    intros E (N1 & N2 & [N3 N4]%NoDup_cons)%NoDup_app. unfold rem.
    assert (filter (fun q => q <> p) (f1 ++ p :: f2) = f1 ++ f2) as F.
    { rewrite filter_app, filter_cons_False by auto. rewrite !filter_other; [done|done|].
      intros H. apply (N2 _ H), elem_of_list_here. }
    rewrite <- F. clear F N1 N2 N3 N4. revert k E. induction fr as [|a fr IH]; intros [|k] E; cbn in *; try done.
    - by injection E as ->.
    - f_equal. by apply IH.
  Qed.
  Lemma ins_eq fr k p l : fr !! k = Some l -> <[k := p :: l]> fr = ins k p fr.
  Proof.
    unfold ins. revert k. induction fr as [|a fr IH]; intros [|k] E; cbn in *; try done.
    - by injection E as ->.
    - f_equal. by apply IH.
  Qed.
  Lemma rem_length k p fr : length (rem k p fr) = length fr.
  Proof. apply alter_length. Qed.
  Lemma ins_length k p fr : length (ins k p fr) = length fr.
  Proof. apply alter_length. Qed.

  (** Taking a free block off its list. *)
  Lemma remove_ok2 st l1 e l2 fr : core (blocks st) (buckets st) (l1 ++ e :: l2) fr -> e_free e = true ->
    length fr = Buckets -> 0 < e_size e < 2 ^ 64 -> bucket_sizes (st_stats st) = lengths fr ->
    Z.of_nat (length (l1 ++ e :: l2)) < 2 ^ 64 ->
    exists st', remove_free_block Buckets Bias st (e_id e) = Ok st' /\
      core (blocks st') (buckets st') (l1 ++ with_free false e :: l2) (rem (bidx (e_size e)) (e_id e) fr) /\
      st_stats st' = set_buckets (lengths (rem (bidx (e_size e)) (e_id e) fr)) (st_stats st) /\ made st' = made st.
  Proof.
    intros C Fe Lf Sz Es Ln.
    destruct (remove_ok Buckets Bias st l1 e l2 fr C Fe Lf) as (f1 & f2 & st1 & El & Rm & C1 & St1 & M1); [by apply bidx_lt|].
    pose proof (c_frnd _ _ _ _ _ _ C _ _ El) as ND. rewrite (rem_eq _ _ _ _ _ El ND) in C1.
    exists st1. split_and!; try done. rewrite St1. unfold add_bucket_size, set_buckets. f_equal. rewrite Es.
    fold (bidx (e_size e)). rewrite <- (rem_eq _ _ _ _ _ El ND).
    pose proof (free_lists_short _ _ _ _ _ _ C El). 
    apply (lengths_insert fr _ _ (f1 ++ f2) (-1) El); rewrite !app_length in *; cbn [length] in *; lia.
  Qed.
  (** Putting a block on its list. *)
  Lemma insert_ok2 st l1 e l2 fr : core (blocks st) (buckets st) (l1 ++ e :: l2) fr -> e_free e = false ->
    length fr = Buckets -> 0 < e_size e < 2 ^ 64 -> bucket_sizes (st_stats st) = lengths fr ->
    Z.of_nat (length (l1 ++ e :: l2)) < 2 ^ 64 ->
    exists st', insert_free_block Buckets Bias st (e_id e) = Ok st' /\
      core (blocks st') (buckets st') (l1 ++ with_free true e :: l2) (ins (bidx (e_size e)) (e_id e) fr) /\
      st_stats st' = set_buckets (lengths (ins (bidx (e_size e)) (e_id e) fr)) (st_stats st) /\ made st' = made st.
  Proof.
    intros C Fe Lf Sz Es Ln.
    destruct (lookup_lt_is_Some_2 fr (bidx (e_size e))) as [l El]; [rewrite Lf; by apply bidx_lt|].
    destruct (insert_ok Buckets Bias st l1 e l2 fr l C Fe El) as (st1 & Rm & C1 & St1 & M1).
    rewrite (ins_eq _ _ _ _ El) in C1.
    exists st1. split_and!; try done. rewrite St1. unfold add_bucket_size, set_buckets. f_equal. rewrite Es.
    fold (bidx (e_size e)). rewrite <- (ins_eq _ _ _ _ El).
    apply (lengths_insert fr _ _ _ 1 El); [cbn; lia|].
    assert (length (e_id e :: l) <= length (l1 ++ e :: l2))%nat; [|lia].
    rewrite <- (map_length e_id (l1 ++ e :: l2)). apply submseteq_length, NoDup_submseteq.
    - apply NoDup_cons. split; [|by eapply C]. intros Hp.
      apply (c_fr _ _ _ _ _ _ C _ _ _ El) in Hp as (a & Ia & Ea & Fa & _).
      assert (a = e) as ->; [|congruence]. eapply ids_inj; [apply (c_nodup _ _ _ _ _ _ C)|done| |done].
      apply elem_of_app. right. apply elem_of_list_here.
    - intros p [->|Hp]%elem_of_cons; [apply ids_elem, elem_of_app; right; apply elem_of_list_here|].
      apply (c_fr _ _ _ _ _ _ C _ _ _ El) in Hp as (a & Ia & <- & _). by apply ids_elem.
  Qed.

  Lemma alloc_some2 st l1 e l2 fr cap size al d : core (blocks st) (buckets st) (l1 ++ e :: l2) fr ->
    length fr = Buckets -> consec 0 (l1 ++ e :: l2) -> bytes (l1 ++ e :: l2) = cap -> cap < 2 ^ 64 -> request size al ->
    (forall p, p ∈ ids (l1 ++ e :: l2) -> (p < made st)%nat) -> bucket_sizes (st_stats st) = lengths fr ->
    e_free e = true -> d = pad (e_start e) al -> size + d <= e_size e ->
    find_block Buckets Bias st size al = Ok (Some (e_id e, d)) ->
    let n := size + d in let rest := rest_of n e (made st) in
    let fr1 := rem (bidx (e_size e)) (e_id e) fr in
    let fr' := if n <? e_size e then ins (bidx (e_size e - n)) (made st) fr1 else fr1 in
    exists st', allocate Buckets Bias st size al = Ok (st', Some (e_id e)) /\
      core (blocks st') (buckets st') (l1 ++ taken n d e :: rest ++ l2) fr' /\
      made st' = (made st + length rest)%nat /\
      st_stats st' = count_alloc n (add_free_blocks (Z.of_nat (length rest)) (set_buckets (lengths fr') (st_stats st))).
  Proof.
    intros C Lf Cs Hb Hc R Hm Es Fe Ed Hfit Hfind n rest fr1 fr'.
    destruct (alloc_some st l1 e l2 fr cap size al d C Lf Cs Hb Hc R Hm Es Fe Ed Hfit Hfind) as
      (st' & fr2 & f1 & f2 & El & Al & C2 & M & S & F).
    pose proof (c_frnd _ _ _ _ _ _ C _ _ El) as ND. rewrite (rem_eq _ _ _ _ _ El ND) in F. fold n fr1 in F.
    exists st'. split; [done|]. assert (fr2 = fr') as ->; [|done].
    unfold fr'. cbn zeta in F. destruct (n <? e_size e); [|done]. destruct F as (l' & El' & ->). by apply ins_eq.
  Qed.

  (** ** Release *)
  Definition lastf (l : list ent) : bool := match last l with Some a => e_free a | None => false end.
  Definition headf (l : list ent) : bool := match l with a :: _ => e_free a | [] => false end.
  Definition absorbed (a e : ent) : ent := with_size (e_size a + e_size e) a.
  Inductive merges_prev (l1 : list ent) (e : ent) (fr : list (list nat)) : list ent -> ent -> list (list nat) -> Z -> Prop :=
  | mp_no : lastf l1 = false -> merges_prev l1 e fr l1 e fr 0
  | mp_yes l1' v : l1 = l1' ++ [v] -> e_free v = true ->
      merges_prev l1 e fr l1' (absorbed (with_free false v) e) (rem (bidx (e_size v)) (e_id v) fr) 1.
  Inductive merges_next (l2 : list ent) (a : ent) (fr : list (list nat)) : list ent -> ent -> list (list nat) -> Z -> Prop :=
  | mn_no : headf l2 = false -> merges_next l2 a fr l2 a fr 0
  | mn_yes l2' n : l2 = n :: l2' -> e_free n = true ->
      merges_next l2 a fr l2' (absorbed a (with_free false n)) (rem (bidx (e_size n)) (e_id n) fr) 1.

  Lemma lastf_ids l1 : lst None (ids l1) = e_id <$> last l1.
  Proof.
    unfold lst, ids. change (map e_id l1) with (e_id <$> l1). rewrite fmap_last. by destruct (last l1).
  Qed.
  Lemma hd_ids l2 : hd (ids l2) None = e_id <$> head l2.
  Proof. by destruct l2. Qed.
  Lemma some_hd h bk l1 l2 fr p : core h bk (l1 ++ l2) fr -> hd (ids l2) None = Some p -> is_Some (h !! p).
  Proof.
    intros C H. rewrite hd_ids in H. destruct l2 as [|a l2]; [done|]. injection H as <-.
    assert (a ∈ l1 ++ a :: l2) as Ia by (apply elem_of_app; right; apply elem_of_list_here).
    destruct (core_here _ _ _ _ _ _ _ C Ia) as (b & -> & _). by eexists.
  Qed.
  Lemma bytes_pos s l : consec s l -> 0 <= bytes l.
  Proof. intros H. pose proof (consec_len _ _ H). lia. Qed.

  Lemma merge_prev_ok st l1 e l2 fr : core (blocks st) (buckets st) (l1 ++ e :: l2) fr -> e_free e = false ->
    length fr = Buckets -> consec 0 (l1 ++ e :: l2) -> bytes (l1 ++ e :: l2) < 2 ^ 64 ->
    bucket_sizes (st_stats st) = lengths fr -> is_u 64 (free_blocks (st_stats st)) ->
    exists st' l1' a fr' m, merge_prev Buckets Bias st (e_id e) (lst None (ids l1)) (hd (ids l2) None) = Ok (st', e_id a) /\
      merges_prev l1 e fr l1' a fr' m /\ core (blocks st') (buckets st') (l1' ++ a :: l2) fr' /\
      st_stats st' = add_free_blocks (- m) (set_buckets (lengths fr') (st_stats st)) /\ made st' = made st.
  Proof.
    intros C Fe Lf Cs Hb Es Hu. rewrite lastf_ids. destruct (last l1) as [v|] eqn:El; cbn [fmap option_fmap option_map].
    2:{ exists st, l1, e, fr, 0. split_and!; [done| |done| |done].
        - apply mp_no. unfold lastf. by rewrite El.
        - destruct st as [? ? s ?]. cbn in *. destruct s. cbn in *. unfold add_free_blocks, set_buckets. cbn.
          rewrite Z.add_0_r, wrap_small by done. by subst. }
    apply last_Some in El as [l1' ->].
    pose proof C as C'. rewrite <- app_assoc in C'. cbn [app] in C'.
    pose proof Cs as Cs'. rewrite <- app_assoc in Cs'. cbn [app] in Cs'.
    assert (v ∈ l1' ++ v :: e :: l2) as Iv by (apply elem_of_app; right; apply elem_of_list_here).
    destruct (core_here _ _ _ _ _ _ _ C' Iv) as (b & Eb & Db). injection Db as Ds Dz Do Df.
    unfold merge_prev. rewrite (load_ok _ _ b) by done. cbn [mbind res_bind]. rewrite Df.
    destruct (e_free v) eqn:Fv.
    2:{ exists st, (l1' ++ [v]), e, fr, 0. split_and!; [done| |done| |done].
        - apply mp_no. unfold lastf. by rewrite last_snoc.
        - destruct st as [? ? s ?]. cbn in *. destruct s. cbn in *. unfold add_free_blocks, set_buckets. cbn.
          rewrite Z.add_0_r, wrap_small by done. by subst. }
    rewrite bytes_app, bytes_cons, bytes_app in Hb. unfold bytes at 2 in Hb. cbn in Hb.
    pose proof Cs' as Cs2. apply consec_app in Cs2 as [Cs1 (Q1 & Q2 & Q3 & Q4 & Q5)].
    pose proof (bytes_pos _ _ Cs1). pose proof (bytes_pos _ _ Q5).
    pose proof (consec_len _ _ Cs') as Ln. rewrite bytes_app, !bytes_cons in Ln.
    destruct (remove_ok2 st l1' v (e :: l2) fr C' Fv Lf) as (st1 & Rm & C1 & St1 & M1); [lia|done|lia|].
    rewrite Rm. cbn [mbind res_bind]. set (v1 := with_free false v) in *.
    assert (e ∈ l1' ++ v1 :: e :: l2) as Ie by (apply elem_of_app; right; apply elem_of_list_further, elem_of_list_here).
    assert (v1 ∈ l1' ++ v1 :: e :: l2) as Iv1 by (apply elem_of_app; right; apply elem_of_list_here).
    destruct (core_here _ _ _ _ _ _ _ C1 Ie) as (b2 & Eb2 & Db2). injection Db2 as Ds2 Dz2 Do2 Df2.
    destruct (core_here _ _ _ _ _ _ _ C1 Iv1) as (b3 & Eb3 & Db3). injection Db3 as Ds3 Dz3 Do3 Df3.
    change (e_id v1) with (e_id v) in *. cbn in Dz3.
    rewrite (load_ok _ _ b2) by done. cbn [mbind res_bind].
    rewrite store_ok by (by rewrite Eb3). cbn [mbind res_bind].
    rewrite store_ok by (cbn; apply some_alter; by rewrite Eb3). cbn [mbind res_bind].
    rewrite store_opt.
    2:{ intros r Hr. cbn. rewrite !some_alter. eapply (some_hd _ _ (l1' ++ [v1; e]) l2); [|exact Hr].
        rewrite <- app_assoc. exact C1. }
    cbn [mbind res_bind].
    rewrite destroy_ok by (cbn; rewrite some_alter_opt, !some_alter; by rewrite Eb2). cbn [mbind res_bind blocks buckets st_stats made].
    assert (alter (λ pb, set_size (wrap 64 (b_size pb + b_size b2)) pb) (e_id v) (blocks st1) =
            alter (set_size (e_size v1 + e_size e)) (e_id v) (blocks st1)) as Ea.
    { apply alter_ext. intros x Hx. rewrite Eb3 in Hx. injection Hx as <-. rewrite Dz2, Dz3.
      unfold v1. cbn. rewrite wrap_small by (unfold is_u; lia). done. }
    rewrite Ea.
    pose proof (absorb_core _ _ _ _ _ _ _ _ _ C1 eq_refl Fe) as C2. change (e_id v1) with (e_id v) in C2.
    eexists _, l1', (absorbed v1 e), _, 1. split_and!; [reflexivity|by apply mp_yes|exact C2| |done].
    cbn [with_stats st_stats]. by rewrite St1.
  Qed.

  Lemma merge_next_ok st l1 a l2 fr : core (blocks st) (buckets st) (l1 ++ a :: l2) fr -> e_free a = false ->
    length fr = Buckets -> consec 0 (l1 ++ a :: l2) -> bytes (l1 ++ a :: l2) < 2 ^ 64 ->
    bucket_sizes (st_stats st) = lengths fr -> is_u 64 (free_blocks (st_stats st)) ->
    exists st' l2' a' fr' m, merge_next Buckets Bias st (e_id a) (hd (ids l2) None) = Ok st' /\
      merges_next l2 a fr l2' a' fr' m /\ core (blocks st') (buckets st') (l1 ++ a' :: l2') fr' /\
      st_stats st' = add_free_blocks (- m) (set_buckets (lengths fr') (st_stats st)) /\ made st' = made st.
  Proof.
    intros C Fa Lf Cs Hb Es Hu. rewrite hd_ids. destruct l2 as [|n l2]; cbn [head fmap option_fmap option_map].
    { exists st, [], a, fr, 0. split_and!; [done| |done| |done].
      - by apply mn_no.
      - destruct st as [? ? s ?]. cbn in *. destruct s. cbn in *. unfold add_free_blocks, set_buckets. cbn.
        rewrite Z.add_0_r, wrap_small by done. by subst. }
    assert (n ∈ l1 ++ a :: n :: l2) as In by (apply elem_of_app; right; apply elem_of_list_further, elem_of_list_here).
    destruct (core_here _ _ _ _ _ _ _ C In) as (b & Eb & Db). injection Db as Ds Dz Do Df.
    unfold merge_next. rewrite (load_ok _ _ b) by done. cbn [mbind res_bind]. rewrite Df.
    destruct (e_free n) eqn:Fn.
    2:{ exists st, (n :: l2), a, fr, 0. split_and!; [done| |done| |done].
        - by apply mn_no.
        - destruct st as [? ? s ?]. cbn in *. destruct s. cbn in *. unfold add_free_blocks, set_buckets. cbn.
          rewrite Z.add_0_r, wrap_small by done. by subst. }
    rewrite bytes_app, !bytes_cons in Hb.
    pose proof Cs as Cs2. apply consec_app in Cs2 as [Cs1 (Q1 & Q2 & Q3 & Q4 & Q5)].
    pose proof (bytes_pos _ _ Cs1). pose proof (bytes_pos _ _ Q5).
    pose proof (consec_len _ _ Cs) as Ln. rewrite bytes_app, !bytes_cons in Ln.
    assert (core (blocks st) (buckets st) ((l1 ++ [a]) ++ n :: l2) fr) as C' by (by rewrite <- app_assoc).
    destruct (remove_ok2 st (l1 ++ [a]) n l2 fr C' Fn Lf) as (st1 & Rm & C1 & St1 & M1); [lia|done|rewrite <- app_assoc; cbn [app]; lia|].
    rewrite Rm. cbn [mbind res_bind]. set (n1 := with_free false n) in *.
    rewrite <- app_assoc in C1. cbn [app] in C1.
    assert (n1 ∈ l1 ++ a :: n1 :: l2) as Ie by (apply elem_of_app; right; apply elem_of_list_further, elem_of_list_here).
    assert (a ∈ l1 ++ a :: n1 :: l2) as Iv1 by (apply elem_of_app; right; apply elem_of_list_here).
    destruct (core_here _ _ _ _ _ _ _ C1 Ie) as (b2 & Eb2 & Db2). injection Db2 as Ds2 Dz2 Do2 Df2.
    destruct (core_here _ _ _ _ _ _ _ C1 Iv1) as (b3 & Eb3 & Db3). injection Db3 as Ds3 Dz3 Do3 Df3.
    change (e_id n1) with (e_id n) in *. cbn in Dz2.
    rewrite (load_ok _ _ b2) by done. cbn [mbind res_bind].
    pose proof (c_phys _ _ _ _ _ _ C1) as P. rewrite ids_app in P. cbn [ids map] in P. apply seg_app in P as [_ (_ & P & _)].
    change (e_id n1) with (e_id n) in P. unfold PL in P. rewrite Eb2 in P. cbn in P. injection P as _ Pn.
    change (map e_id l2) with (ids l2) in Pn. rewrite Pn.
    rewrite store_ok by (by rewrite Eb3). cbn [mbind res_bind].
    rewrite store_ok by (cbn; apply some_alter; by rewrite Eb3). cbn [mbind res_bind].
    rewrite store_opt.
    2:{ intros r Hr. cbn. rewrite !some_alter. eapply (some_hd _ _ (l1 ++ [a; n1]) l2); [|exact Hr].
        rewrite <- app_assoc. exact C1. }
    cbn [mbind res_bind].
    rewrite destroy_ok by (cbn; rewrite some_alter_opt, !some_alter; by rewrite Eb2). cbn [with_stats blocks buckets st_stats made].
    assert (alter (λ pb, set_size (wrap 64 (b_size pb + b_size b2)) pb) (e_id a) (blocks st1) =
            alter (set_size (e_size a + e_size n1)) (e_id a) (blocks st1)) as Ea.
    { apply alter_ext. intros x Hx. rewrite Eb3 in Hx. injection Hx as <-. rewrite Dz2, Dz3.
      unfold n1. cbn. rewrite wrap_small by (unfold is_u; lia). done. }
    rewrite Ea.
    pose proof (absorb_core _ _ _ _ _ _ _ _ _ C1 Fa eq_refl) as C2. change (e_id n1) with (e_id n) in C2.
    eexists _, l2, (absorbed a n1), _, 1. split_and!; [reflexivity|by apply mn_yes|exact C2| |done].
    cbn [with_stats st_stats]. by rewrite St1.
  Qed.
End ops.
