(** The invariant of legal histories of the range allocator. *)
From stdpp Require Import gmap.
From Verif Require Import Word MathModel MathProofs RangeModel RangeSpec RangeProofs RangeInv.
Open Scope Z_scope.

Section reach.
  Context (Buckets : nat) (Bias : Z) (HB : (1 <= Buckets <= 255)%nat) (HBias : 0 <= Bias).
  Notation bidx := (bidx Buckets Bias).
  Notation core := (core Buckets Bias).
  Notation reach := (reach Buckets Bias).
  Notation merges_prev := (merges_prev Buckets Bias).
  Notation merges_next := (merges_next Buckets Bias).

  Definition rkey (r : range) := (r_id r, r_offset r, r_padding r, r_length r).
  Definition ekey (e : ent) := (e_id e, e_off e, e_off e - e_start e, e_size e - (e_off e - e_start e)).
  Fixpoint noadj (lay : list ent) : Prop :=
    match lay with
    | [] => True
    | a :: l => ~ (e_free a = true /\ headf l = true) /\ noadj l
    end.
  Lemma noadj_app l1 l2 : noadj (l1 ++ l2) <-> noadj l1 /\ noadj l2 /\ ~ (lastf l1 = true /\ headf l2 = true).
  Proof.
    induction l1 as [|a l1 IH]; cbn [app noadj].
    - unfold lastf. cbn. naive_solver.
    - rewrite IH. destruct l1 as [|b l1]; cbn [app headf].
      + unfold lastf. cbn. naive_solver.
      + unfold lastf. cbn [last]. naive_solver.
  Qed.

  Record inv (cap : Z) (st : ra) (live : list range) (t : totals) (lay : list ent) (fr : list (list nat)) : Prop := mk_inv {
    i_core : core (blocks st) (buckets st) lay fr;
    i_len : length fr = Buckets;
    i_consec : consec 0 lay;
    i_bytes : bytes lay = cap;
    i_cap : 0 < cap < 2 ^ 64;
    i_noadj : noadj lay;
    i_off : forall e, e ∈ lay -> e_free e = false -> e_start e <= e_off e < e_start e + e_size e;
    i_live : map rkey live ≡ₚ map ekey (used lay);
    i_req : Forall (fun r => request (r_size r) (r_align r) /\ r_length r = r_size r /\
                     (r_align r | r_offset r) /\ r_padding r < r_align r) live;
    i_made : forall p, p ∈ ids lay -> (p < made st)%nat;
    i_stats : st_stats st = stats_of lay fr cap t
  }.

  Lemma frees_used_bytes lay : bytes (frees lay) + bytes (used lay) = bytes lay.
  Proof.
    induction lay as [|e lay IH]; [done|]. rewrite frees_cons, used_cons.
    destruct (e_free e); rewrite !bytes_cons; lia.
  Qed.
  Lemma frees_used_len lay : (length (frees lay) + length (used lay) = length lay)%nat.
  Proof.
    induction lay as [|e lay IH]; [done|]. rewrite frees_cons, used_cons.
    destruct (e_free e); cbn; lia.
  Qed.
  Lemma bytes_filter_pos s lay : consec s lay -> 0 <= bytes (frees lay) /\ 0 <= bytes (used lay).
  Proof.
    revert s. induction lay as [|e lay IH]; intros s; [done|]. intros (_ & H & ?%IH). rewrite frees_cons, used_cons.
    destruct (e_free e); rewrite !bytes_cons; lia.
  Qed.
  Lemma inv_nums cap st live t lay fr : inv cap st live t lay fr ->
    0 <= bytes (frees lay) /\ 0 <= bytes (used lay) /\ bytes (frees lay) + bytes (used lay) = cap /\
    Z.of_nat (length lay) <= cap /\ (length (frees lay) + length (used lay) = length lay)%nat.
  Proof.
    intros I. pose proof (bytes_filter_pos _ _ (i_consec _ _ _ _ _ _ I)). pose proof (frees_used_bytes lay).
    rewrite (i_bytes _ _ _ _ _ _ I) in *. pose proof (consec_len _ _ (i_consec _ _ _ _ _ _ I)).
    rewrite (i_bytes _ _ _ _ _ _ I) in *. pose proof (frees_used_len lay). lia.
  Qed.

  (** ** A new allocator *)
  Lemma bucket_empty k : (replicate Buckets ([] : list nat)) !! k = (if decide (k < Buckets)%nat then Some [] else None).
  Proof. case_decide; [by apply lookup_replicate_2|]. apply lookup_ge_None. rewrite replicate_length. lia. Qed.
  Lemma inv_new cap : 0 < cap < 2 ^ 64 ->
    exists st, ra_new Buckets Bias cap = Ok st /\
      inv cap st [] (mk_totals 0 0 0 0 0) [mk_ent 0%nat 0 cap 0 true] (ins (bidx cap) 0%nat (replicate Buckets [])).
  Proof.
    intros Hc. unfold ra_new. destruct (Z.eqb_spec cap 0); [lia|]. cbn [negb assert_ mbind res_bind make].
    unfold make, ra_empty. cbn [blocks buckets st_stats made].
    set (b := mk_block 0 cap 0 None None None None false).
    set (st0 := mk_ra (<[0%nat := b]> ∅) (replicate Buckets None) (stats0 Buckets) 1).
    set (e := mk_ent 0%nat 0 cap 0 false).
    assert (core (blocks st0) (buckets st0) ([] ++ e :: []) (replicate Buckets [])) as C0.
    { constructor; unfold st0; cbn [blocks buckets].
      - cbn. split; [|done]. unfold PL. by rewrite lookup_insert.
      - intros a [->|[]%elem_of_nil]%elem_of_cons. cbn. by rewrite lookup_insert.
      - intros p [x Hp]. destruct (decide (p = 0%nat)) as [->|N]; [apply elem_of_list_here|].
        by rewrite lookup_insert_ne, lookup_empty in Hp.
      - by rewrite !replicate_length.
      - intros k l Hk. apply lookup_replicate in Hk as [-> Hk]. split; [by apply lookup_replicate_2|done].
      - apply NoDup_singleton.
      - intros k l Hk. apply lookup_replicate in Hk as [-> Hk]. apply NoDup_nil_2.
      - intros k l p Hk. apply lookup_replicate in Hk as [-> Hk]. split; [intros []%elem_of_nil|].
        intros (a & [->|[]%elem_of_nil]%elem_of_cons & _ & F & _). done. }
    assert (bucket_sizes (st_stats st0) = lengths (replicate Buckets [])) as Es.
    { unfold st0, stats0, lengths. cbn. change (map ?f ?l) with (f <$> l). by rewrite fmap_replicate. }
    destruct (insert_ok2 Buckets Bias HB HBias st0 [] e [] (replicate Buckets []) C0) as (st1 & Ins & C1 & S1 & M1);
      [done|apply replicate_length|done|exact Es|cbn; lia|].
    change (e_id e) with 0%nat in *. fold st0. rewrite Ins. cbn [mbind res_bind].
    eexists. split; [reflexivity|]. constructor; cbn [with_stats blocks buckets st_stats made].
    - exact C1.
    - by rewrite ins_length, replicate_length.
    - cbn. lia.
    - unfold bytes. cbn. lia.
    - done.
    - cbn. naive_solver.
    - intros a [->|[]%elem_of_nil]%elem_of_cons. done.
    - done.
    - done.
    - intros p [->|[]%elem_of_nil]%elem_of_cons. rewrite M1. cbn. lia.
    - rewrite S1. unfold stats_of, set_buckets. rewrite frees_cons, used_cons. cbn [e_free].
      rewrite bytes_cons. cbn [e_size st0 stats0 st_stats free_size allocated_size allocated_blocks bucket_sizes high_water total_frees total_allocs total_free_size total_alloc_size].
      replace (cap + bytes (frees [])) with cap by (unfold bytes; cbn; lia). done.
  Qed.

  (** ** Allocation *)
  Lemma candidates_free cap st live t lay fr size : inv cap st live t lay fr ->
    forall q, q ∈ candidates Buckets Bias fr size -> exists e, e ∈ lay /\ e_id e = q /\ e_free e = true.
  Proof.
    intros I q Hq. eapply free_elems; try apply I; [done|done| |].
    - rewrite (i_bytes _ _ _ _ _ _ I). apply (i_cap _ _ _ _ _ _ I).
    - unfold candidates in Hq. rewrite <- (take_drop (bidx size) fr), concat_app. apply elem_of_app. by right.
  Qed.
  Lemma alloc_none cap st live t lay fr size al : inv cap st live t lay fr -> request size al ->
    pick (blocks st) size al (candidates Buckets Bias fr size) = None ->
    allocate Buckets Bias st size al = Ok (st, None) /\
    (forall e, e ∈ lay -> e_free e = true -> e_size e < size + pad (e_start e) al).
  Proof.
    intros I R P. split.
    - unfold allocate. destruct R as (R1 & R2 & R3).
      destruct (Z.eqb_spec size 0); [lia|]. destruct (Z.eqb_spec al 0); [lia|]. cbn [negb andb assert_ mbind res_bind].
      rewrite (find_ok Buckets Bias HB HBias st lay fr size al cap); try apply I; [|done]. by rewrite P.
    - intros e Ie Fe. pose proof (consec_bounds _ _ _ (i_consec _ _ _ _ _ _ I) Ie) as B.
      rewrite (i_bytes _ _ _ _ _ _ I) in B. pose proof (i_cap _ _ _ _ _ _ I).
      destruct R as (R1 & R2 & R3). pose proof (pad_range (e_start e) al R2).
      destruct (Z_lt_dec (e_size e) size); [lia|].
      eapply pick_none; [apply I|by eapply candidates_free|exact P|done|].
      unfold candidates. destruct (lookup_lt_is_Some_2 fr (bidx (e_size e))) as [l El].
      { rewrite (i_len _ _ _ _ _ _ I). apply bidx_lt; [done|done|lia]. }
      apply elem_of_concat. exists (bidx (e_size e) - bidx size)%nat, l. rewrite lookup_drop.
      pose proof (bidx_mono Buckets Bias HB HBias size (e_size e) ltac:(lia) ltac:(lia) ltac:(lia)).
      replace (bidx size + (bidx (e_size e) - bidx size))%nat with (bidx (e_size e)) by lia. split; [done|].
      eapply c_fr; [apply I|done|]. eauto.
  Qed.

  Definition bump_alloc (t : totals) (r : range) (live : list range) : totals :=
    mk_totals (n_allocs t + 1) (n_frees t) (bytes_alloc t + occupied r) (bytes_free t) (Z.max (peak t) (in_use (r :: live))).
  Definition bump_free (t : totals) (r : range) : totals :=
    mk_totals (n_allocs t) (n_frees t + 1) (bytes_alloc t) (bytes_free t + occupied r) (peak t).
  Lemma sumZ_perm l l' : l ≡ₚ l' -> sumZ l = sumZ l'.
  Proof. induction 1; unfold sumZ in *; cbn in *; lia. Qed.
  Lemma occupied_key r : occupied r = (fun k => k.2 + k.1.2) (rkey r).
  Proof. done. Qed.
  Lemma in_use_bytes live lay : map rkey live ≡ₚ map ekey (used lay) -> in_use live = bytes (used lay).
  Proof.
    intros P. unfold in_use, bytes.
    assert (map occupied live = map (fun k => k.2 + k.1.2) (map rkey live)) as -> by (by rewrite map_map).
    apply (Permutation_map (fun k => k.2 + k.1.2)) in P. rewrite (sumZ_perm _ _ P), map_map. f_equal.
    apply map_ext. intros e. cbn. lia.
  Qed.
  Lemma used_rest n e q : used (rest_of n e q) = [].
  Proof. unfold rest_of. by destruct (n <? e_size e). Qed.
  Lemma frees_rest n e q : frees (rest_of n e q) = rest_of n e q.
  Proof. unfold rest_of. by destruct (n <? e_size e). Qed.
  Lemma bytes_rest n e q : n <= e_size e -> bytes (rest_of n e q) = e_size e - n.
  Proof. unfold rest_of, bytes. destruct (Z.ltb_spec n (e_size e)); cbn; lia. Qed.
  Lemma in_ent_split (lay : list ent) e : e ∈ lay -> exists l1 l2, lay = l1 ++ e :: l2.
  Proof. apply elem_of_list_split. Qed.

  (** What an allocation does to the layout. *)
  Definition alloc_layout (l1 : list ent) (e : ent) (l2 : list ent) (fr : list (list nat)) (n d : Z) (q : nat)
      (lay' : list ent) (fr' : list (list nat)) : Prop :=
    lay' = l1 ++ taken n d e :: rest_of n e q ++ l2 /\
    fr' = (let fr1 := rem (bidx (e_size e)) (e_id e) fr in
           if n <? e_size e then ins (bidx (e_size e - n)) q fr1 else fr1).

  Lemma alloc_inv cap st live t l1 e l2 fr size al d : inv cap st live t (l1 ++ e :: l2) fr -> request size al ->
    e_free e = true -> d = pad (e_start e) al -> size + d <= e_size e ->
    find_block Buckets Bias st size al = Ok (Some (e_id e, d)) ->
    exists st' b lay' fr', allocate Buckets Bias st size al = Ok (st', Some (e_id e)) /\
      alloc_layout l1 e l2 fr (size + d) d (made st) lay' fr' /\
      blocks st' !! e_id e = Some b /\ b_offset b = e_start e + d /\ b_length b = size /\ b_padding b = d /\
      forall r, r = mk_range (e_id e) (b_offset b) (b_length b) (b_padding b) size al ->
        inv cap st' (r :: live) (bump_alloc t r live) lay' fr'.
  Proof.
    intros I R Fe Ed Hfit Hfind. pose proof (i_core _ _ _ _ _ _ I) as C. pose proof (inv_nums _ _ _ _ _ _ I) as Nums.
    pose proof (i_cap _ _ _ _ _ _ I) as Hc. pose proof (i_bytes _ _ _ _ _ _ I) as Hb. pose proof (i_consec _ _ _ _ _ _ I) as Cs.
    assert (bucket_sizes (st_stats st) = lengths fr) as Es by (by rewrite (i_stats _ _ _ _ _ _ I)).
    destruct (alloc_some2 Buckets Bias HB HBias st l1 e l2 fr cap size al d) as (st' & Al & C' & M & S); try done; try apply I.
    set (n := size + d) in *. set (rest := rest_of n e (made st)) in *.
    set (fr' := if n <? e_size e then _ else _) in *.
    assert (taken n d e ∈ l1 ++ taken n d e :: rest ++ l2) as It by (apply elem_of_app; right; apply elem_of_list_here).
    destruct (core_here _ _ _ _ _ _ _ C' It) as (b & Eb & Db). injection Db as Ds Dz Do Df. cbn in Eb, Ds, Dz, Do, Df.
    destruct R as (R1 & R2 & R3). pose proof (pad_range (e_start e) al R2) as Pd. rewrite <- Ed in Pd.
    assert (e ∈ l1 ++ e :: l2) as Ie by (apply elem_of_app; right; apply elem_of_list_here).
    pose proof (consec_bounds _ _ _ Cs Ie) as Bd.
    assert (b_padding b = d) as Bp. { unfold b_padding. rewrite Do, Ds. rewrite wrap_small by (unfold is_u; lia). lia. }
    assert (b_length b = size) as Bl. { unfold b_length. rewrite Bp, Dz. unfold n. rewrite wrap_small by (unfold is_u; lia). lia. }
    exists st', b, (l1 ++ taken n d e :: rest ++ l2), fr'. split_and!; [done|by split|done|done|done|done|].
    intros r ->. rewrite Bp, Bl, Do. set (r := mk_range _ _ _ _ _ _).
    assert (occupied r = n) as Or by (unfold occupied, r, n; cbn; lia).
    assert (map rkey (r :: live) ≡ₚ map ekey (used (l1 ++ taken n d e :: rest ++ l2))) as Lv.
    { rewrite used_app, used_cons, used_app. unfold rest. rewrite used_rest. cbn [taken e_free app].
      rewrite map_app. cbn [map]. rewrite <- Permutation_middle.
      pose proof (i_live _ _ _ _ _ _ I) as L. rewrite used_app, used_cons, Fe in L. rewrite map_app in L.
      rewrite L. assert (ekey (taken n d e) = rkey r) as ->; [|done].
      unfold ekey, rkey, r, taken, n. cbn.
      replace (e_start e + d - e_start e) with d by lia. by replace (size + d - d) with size by lia. }
    apply mk_inv; try done.
    - unfold fr'. destruct (n <? e_size e); rewrite ?ins_length, rem_length; apply I.
    - apply consec_app in Cs as [Cs1 Cs2]. apply consec_app. split; [done|]. cbn in Cs2. destruct Cs2 as (Q1 & Q2 & Q3).
      cbn [consec taken e_start e_size]. split_and!; [done|lia|]. apply consec_app. unfold rest. rewrite bytes_rest by done. split.
      + unfold rest_of. destruct (Z.ltb_spec n (e_size e)); [|done]. cbn. lia.
      + replace (0 + bytes l1 + n + (e_size e - n)) with (0 + bytes l1 + e_size e) by lia. done.
    - rewrite bytes_app, bytes_cons in *. rewrite bytes_app. unfold rest. rewrite bytes_rest by done. cbn. lia.
    - pose proof (i_noadj _ _ _ _ _ _ I) as Na. apply noadj_app in Na as (Na1 & [Na2 Na3] & Na4). apply noadj_app.
      split_and!; [done| |cbn; naive_solver]. cbn [noadj taken e_free]. split; [by intros [? _]|].
      apply noadj_app. split_and!; [|done|].
      + unfold rest, rest_of. destruct (n <? e_size e); [|done]. cbn. naive_solver.
      + unfold rest, rest_of. destruct (n <? e_size e); [|by intros [? _]]. unfold lastf. cbn. intros [_ ?]. by apply Na2.
    - intros a Ia Fa. apply elem_of_app in Ia as [Ia|[->|[Ia|Ia]%elem_of_app]%elem_of_cons].
      + apply (i_off _ _ _ _ _ _ I); [apply elem_of_app; by left|done].
      + cbn. lia.
      + unfold rest, rest_of in Ia. destruct (n <? e_size e); [|by apply elem_of_nil in Ia].
        apply elem_of_cons in Ia as [->|[]%elem_of_nil]. done.
      + apply (i_off _ _ _ _ _ _ I); [apply elem_of_app; right; by apply elem_of_list_further|done].
    - constructor; [|apply I]. cbn. split_and!; [done..| |lia]. rewrite Ed. by apply pad_aligned.
    - intros p Hp. rewrite M. rewrite !ids_app in Hp. cbn in Hp. rewrite map_app in Hp.
      apply elem_of_app in Hp as [Hp|[->|[Hp|Hp]%elem_of_app]%elem_of_cons].
      + assert (p < made st)%nat; [|lia]. apply (i_made _ _ _ _ _ _ I). rewrite ids_app. apply elem_of_app. by left.
      + assert (e_id e < made st)%nat; [|lia]. apply (i_made _ _ _ _ _ _ I). by apply ids_elem.
      + unfold rest, rest_of in *. destruct (n <? e_size e); [|by apply elem_of_nil in Hp].
        apply elem_of_cons in Hp as [->|[]%elem_of_nil]. cbn. lia.
      + assert (p < made st)%nat; [|lia]. apply (i_made _ _ _ _ _ _ I). rewrite ids_app. apply elem_of_app. right.
        by apply elem_of_list_further.
    - rewrite S, (i_stats _ _ _ _ _ _ I). unfold count_alloc, add_free_blocks, set_buckets, stats_of, bump_alloc.
      cbn [free_size allocated_size free_blocks allocated_blocks bucket_sizes high_water total_frees total_allocs total_free_size total_alloc_size total_capacity n_allocs n_frees bytes_alloc bytes_free peak].
      rewrite (in_use_bytes _ _ Lv), Or.
      rewrite !frees_app, !used_app, !frees_cons, !used_cons, !frees_app, !used_app. unfold rest.
      rewrite used_rest, frees_rest, Fe. cbn [taken e_free app].
      rewrite ?bytes_app, ?bytes_cons, ?bytes_app, ?bytes_rest by done. cbn [taken e_size].
      rewrite !app_length. cbn [length]. rewrite ?app_length.
      rewrite !frees_app, !used_app, !frees_cons, !used_cons, Fe, !bytes_app, !bytes_cons, !app_length in Nums. cbn [length] in Nums.
      assert (length (rest_of n e (made st)) <= 1)%nat by (unfold rest_of; destruct (n <? e_size e); cbn; lia).
      apply consec_app in Cs as [Cs1 (_ & _ & Cs2)]. pose proof (bytes_filter_pos _ _ Cs1). pose proof (bytes_filter_pos _ _ Cs2).
      rewrite !wrap_add_l, wrap_sub_l. f_equal; try (rewrite wrap_small by (unfold is_u; lia); lia).
  Qed.

  (** ** Release *)
  Lemma mp_facts l1 e fr l1' a fr' m l2 : merges_prev l1 e fr l1' a fr' m -> e_free e = false ->
    consec 0 (l1 ++ e :: l2) ->
    e_free a = false /\ consec 0 (l1' ++ a :: l2) /\ bytes (l1' ++ a :: l2) = bytes (l1 ++ e :: l2) /\
    length fr' = length fr /\ (forall p, p ∈ ids (l1' ++ [a]) -> p ∈ ids (l1 ++ [e])) /\ used l1' = used l1 /\
    bytes (frees l1') = bytes (frees l1) - (e_size a - e_size e) /\ e_size e <= e_size a /\
    Z.of_nat (length (frees l1')) = Z.of_nat (length (frees l1)) - m /\ (0 <= m <= 1) /\
    (noadj l1 -> noadj l1' /\ lastf l1' = false).
  Proof.
    intros M Fe Cs. destruct M as [Hl|l1' v -> Fv].
    - split_and!; try done; try lia.
    - rewrite <- app_assoc in Cs. cbn [app] in Cs. apply consec_app in Cs as [Cs1 (Q1 & Q2 & Q3 & Q4 & Q5)].
      split_and!; try done.
      + apply consec_app. split; [done|]. cbn. split_and!; [done|lia|]. by rewrite Z.add_assoc.
      + rewrite !bytes_app, !bytes_cons. change (bytes []) with 0. cbn [e_size with_size with_free absorbed]. lia.
      + by rewrite rem_length.
      + intros p. rewrite !ids_app, !elem_of_app. cbn. rewrite !elem_of_cons. tauto.
      + rewrite used_app, used_cons, Fv. cbn. by rewrite app_nil_r.
      + rewrite frees_app, frees_cons, Fv, bytes_app, bytes_cons. change (bytes (frees [])) with 0. cbn [e_size with_size with_free absorbed]. lia.
      + cbn. lia.
      + rewrite frees_app, frees_cons, Fv, app_length. cbn. lia.
      + intros (N1 & N2 & N3)%noadj_app. split; [done|]. cbn in N3. rewrite Fv in N3. destruct (lastf l1'); [|done]. naive_solver.
  Qed.
  Lemma mn_facts l1 l2 e fr l2' a fr' m : merges_next l2 e fr l2' a fr' m -> e_free e = false ->
    consec 0 (l1 ++ e :: l2) ->
    e_free a = false /\ consec 0 (l1 ++ a :: l2') /\ bytes (l1 ++ a :: l2') = bytes (l1 ++ e :: l2) /\
    length fr' = length fr /\ (forall p, p ∈ ids (a :: l2') -> p ∈ ids (e :: l2)) /\ used l2' = used l2 /\
    bytes (frees l2') = bytes (frees l2) - (e_size a - e_size e) /\ e_size e <= e_size a /\
    Z.of_nat (length (frees l2')) = Z.of_nat (length (frees l2)) - m /\ (0 <= m <= 1) /\
    (noadj l2 -> noadj l2' /\ headf l2' = false) /\ e_id a = e_id e.
  Proof.
    intros M Fe Cs. destruct M as [Hl|l2' v -> Fv].
    - split_and!; try done; try lia.
    - apply consec_app in Cs as [Cs1 (Q1 & Q2 & Q3 & Q4 & Q5)].
      split_and!; try done.
      + apply consec_app. split; [done|]. cbn. split_and!; [done|lia|]. by rewrite Z.add_assoc.
      + rewrite !bytes_app, !bytes_cons. cbn. lia.
      + by rewrite rem_length.
      + intros p. cbn. rewrite !elem_of_cons. tauto.
      + by rewrite used_cons, Fv.
      + rewrite frees_cons, Fv, bytes_cons. cbn. lia.
      + cbn. lia.
      + rewrite frees_cons, Fv. cbn [length]. lia.
      + intros [N1 N2]. split; [done|]. rewrite Fv in N1. destruct (headf l2'); [|done]. naive_solver.
  Qed.

  Definition free_layout (l1 : list ent) (e : ent) (l2 : list ent) (fr : list (list nat)) (lay' : list ent) (fr' : list (list nat)) : Prop :=
    exists l1' a fr1 m1 l2' a' fr2 m2, merges_prev l1 e fr l1' a fr1 m1 /\ merges_next l2 a fr1 l2' a' fr2 m2 /\
      lay' = l1' ++ with_free true a' :: l2' /\ fr' = ins (bidx (e_size a')) (e_id a') fr2.

  Lemma free_inv cap st live1 r live2 t lay fr : inv cap st (live1 ++ r :: live2) t lay fr ->
    exists l1 e l2 st' lay' fr', lay = l1 ++ e :: l2 /\ e_id e = r_id r /\ e_free e = false /\
      free Buckets Bias st (r_id r) = Ok st' /\ free_layout l1 e l2 fr lay' fr' /\
      inv cap st' (live1 ++ live2) (bump_free t r) lay' fr'.
  Proof.
    intros I. pose proof (inv_nums _ _ _ _ _ _ I) as Nums. pose proof (i_live _ _ _ _ _ _ I) as Lv.
    assert (rkey r ∈ map ekey (used lay)) as Hr.
    { rewrite <- Lv. apply elem_of_list_fmap. exists r. split; [done|]. apply elem_of_app. right. apply elem_of_list_here. }
    apply elem_of_list_fmap in Hr as (e & Ek & He). apply elem_of_list_filter in He as [Fe Ie].
    destruct (in_ent_split _ _ Ie) as (l1 & l2 & ->).
    assert (occupied r = e_size e) as Or. { rewrite occupied_key, Ek. cbn. lia. }
    assert (e_id e = r_id r) as Ei by (unfold rkey, ekey in Ek; congruence).
    pose proof (i_core _ _ _ _ _ _ I) as C. pose proof (i_consec _ _ _ _ _ _ I) as Cs. pose proof (i_cap _ _ _ _ _ _ I) as Hc.
    pose proof (i_bytes _ _ _ _ _ _ I) as Hb.
    destruct (core_here _ _ _ _ _ _ _ C Ie) as (b & Eb & Db). injection Db as Ds Dz Do Df.
    pose proof (c_phys _ _ _ _ _ _ C) as P. rewrite ids_app in P. cbn [ids map] in P. apply seg_mid in P as (_ & P & _).
    unfold PL in P. rewrite Eb in P. cbn in P. injection P as Pp Pn.
    change (map e_id l2) with (ids l2) in Pn. change (map e_id l1) with (ids l1) in Pp.
    assert (bucket_sizes (st_stats st) = lengths fr) as Es by (by rewrite (i_stats _ _ _ _ _ _ I)).
    assert (free_blocks (st_stats st) = Z.of_nat (length (frees (l1 ++ e :: l2)))) as Ef by (by rewrite (i_stats _ _ _ _ _ _ I)).
    destruct (merge_prev_ok Buckets Bias HB HBias st l1 e l2 fr) as (st1 & l1' & a & fr1 & m1 & MP & R1 & C1 & S1 & M1); try done.
    { apply I. } { lia. } { rewrite Ef. unfold is_u. lia. }
    pose proof (mp_facts _ _ _ _ _ _ _ l2 R1 Fe Cs) as (Fa & Cs1 & B1 & L1 & I1 & U1 & F1 & Z1 & N1 & Mr1 & A1).
    destruct (merge_next_ok Buckets Bias HB HBias st1 l1' a l2 fr1) as (st2 & l2' & a' & fr2 & m2 & MN & R2 & C2 & S2 & M2); try done.
    { rewrite L1. apply I. } { rewrite B1. lia. } { rewrite S1. done. } { rewrite S1. cbn. by apply wrap_range. }
    pose proof (mn_facts l1' _ _ _ _ _ _ _ R2 Fa Cs1) as (Fa' & Cs2 & B2 & L2 & I2 & U2 & F2 & Z2 & N2 & Mr2 & A2 & Ei2).
    assert (a' ∈ l1' ++ a' :: l2') as Ia' by (apply elem_of_app; right; apply elem_of_list_here).
    pose proof (consec_bounds _ _ _ Cs2 Ia') as Bd. rewrite B2, B1, Hb in Bd.
    pose proof (consec_len _ _ Cs2) as Ln. rewrite B2, B1, Hb in Ln.
    destruct (insert_ok2 Buckets Bias HB HBias st2 l1' a' l2' fr2) as (st3 & Ins & C3 & S3 & M3); try done.
    { rewrite L2, L1. apply I. } { lia. } { by rewrite S2. } { lia. }
    exists l1, e, l2. eexists _, (l1' ++ with_free true a' :: l2'), (ins (bidx (e_size a')) (e_id a') fr2).
    split_and!; [done|done|done| | |].
    - unfold free. rewrite <- Ei. rewrite (load_ok _ _ b) by done. cbn [mbind res_bind]. rewrite Pp, Pn, MP. cbn [mbind res_bind].
      rewrite MN. cbn [mbind res_bind]. rewrite <- Ei2, Ins. cbn [mbind res_bind]. reflexivity.
    - exists l1', a, fr1, m1, l2', a', fr2, m2. done.
    - assert (map rkey (live1 ++ live2) ≡ₚ map ekey (used (l1' ++ with_free true a' :: l2'))) as Lv2.
      { rewrite used_app, used_cons. cbn [with_free e_free]. rewrite U1, U2.
        rewrite used_app, used_cons, Fe in Lv. rewrite map_app in Lv. cbn [map] in Lv. rewrite <- Permutation_middle in Lv.
        rewrite Ek in Lv. rewrite !map_app in *. cbn [map] in Lv. rewrite <- Permutation_middle in Lv.
        by apply Permutation_cons_inv in Lv. }
      constructor; cbn [with_stats blocks buckets st_stats made]; try done.
      + by rewrite ins_length, L2, L1, (i_len _ _ _ _ _ _ I).
      + clear -Cs2. apply consec_app in Cs2 as [H1 H2]. apply consec_app. split; [done|]. exact H2.
      + rewrite <- Hb, <- B1, <- B2, !bytes_app, !bytes_cons. done.
      + pose proof (i_noadj _ _ _ _ _ _ I) as Na. apply noadj_app in Na as (Na1 & [_ Na2] & _).
        destruct (A1 Na1) as [A1a A1b]. destruct (A2 Na2) as [A2a A2b]. apply noadj_app. split_and!; [done| |].
        * cbn. rewrite A2b. naive_solver.
        * rewrite A1b. naive_solver.
      + intros c Ic Fc. apply elem_of_app in Ic as [Ic|[->|Ic]%elem_of_cons]; [| done|].
        * assert (c ∈ used l1) as H by (rewrite <- U1; by apply elem_of_list_filter). apply elem_of_list_filter in H as [_ H].
          apply (i_off _ _ _ _ _ _ I); [apply elem_of_app; by left|done].
        * assert (c ∈ used l2) as H by (rewrite <- U2; by apply elem_of_list_filter). apply elem_of_list_filter in H as [_ H].
          apply (i_off _ _ _ _ _ _ I); [apply elem_of_app; right; by apply elem_of_list_further|done].
      + pose proof (i_req _ _ _ _ _ _ I) as Rq. apply Forall_app in Rq as [? [? ?]%Forall_cons]. by apply Forall_app.
      + intros p Hp. rewrite M3, M2, M1. apply (i_made _ _ _ _ _ _ I).
        rewrite ids_app in Hp |- *. apply elem_of_app in Hp as [Hp|Hp].
        * assert (p ∈ ids (l1 ++ [e])) as H by (apply I1; rewrite ids_app; apply elem_of_app; by left).
          rewrite ids_app in H. apply elem_of_app in H as [H|H]; apply elem_of_app; [by left|right].
          apply elem_of_cons in H as [->|[]%elem_of_nil]. apply elem_of_list_here.
        * assert (p ∈ ids (a' :: l2')) as Hp' by done. apply I2 in Hp'. apply elem_of_cons in Hp' as [->|Hp'].
          -- assert (e_id a ∈ ids (l1 ++ [e])) as H by (apply I1; rewrite ids_app; apply elem_of_app; right; apply elem_of_list_here).
             rewrite ids_app in H. apply elem_of_app in H as [H|H]; apply elem_of_app; [by left|right].
             apply elem_of_cons in H as [->|[]%elem_of_nil]. apply elem_of_list_here.
          -- apply elem_of_app. right. by apply elem_of_list_further.
      + rewrite (i_stats _ _ _ _ _ _ I) in S1. clear Es Ef.
        unfold set_buckets, stats_of in S1. cbn [free_size allocated_size free_blocks allocated_blocks bucket_sizes high_water total_frees total_allocs total_free_size total_alloc_size total_capacity n_allocs n_frees bytes_alloc bytes_free peak] in S1. unfold add_free_blocks in S1. cbn [free_size allocated_size free_blocks allocated_blocks bucket_sizes high_water total_frees total_allocs total_free_size total_alloc_size total_capacity n_allocs n_frees bytes_alloc bytes_free peak] in S1.
        rewrite S1 in S2. unfold set_buckets in S2. cbn [free_size allocated_size free_blocks allocated_blocks bucket_sizes high_water total_frees total_allocs total_free_size total_alloc_size total_capacity n_allocs n_frees bytes_alloc bytes_free peak] in S2. unfold add_free_blocks in S2. cbn [free_size allocated_size free_blocks allocated_blocks bucket_sizes high_water total_frees total_allocs total_free_size total_alloc_size total_capacity n_allocs n_frees bytes_alloc bytes_free peak] in S2.
        rewrite S2 in S3. unfold set_buckets in S3. cbn [free_size allocated_size free_blocks allocated_blocks bucket_sizes high_water total_frees total_allocs total_free_size total_alloc_size total_capacity n_allocs n_frees bytes_alloc bytes_free peak] in S3.
        rewrite S3. unfold count_free, stats_of, bump_free. cbn [free_size allocated_size free_blocks allocated_blocks bucket_sizes high_water total_frees total_allocs total_free_size total_alloc_size total_capacity n_allocs n_frees bytes_alloc bytes_free peak].
        rewrite Or, Dz.
        assert (0 <= bytes (frees l1) /\ 0 <= bytes (used l1) /\ 0 <= bytes (frees l2) /\ 0 <= bytes (used l2)) as Ps.
        { apply consec_app in Cs as [Ct1 (_ & _ & Ct2)]. pose proof (bytes_filter_pos _ _ Ct1). pose proof (bytes_filter_pos _ _ Ct2). tauto. }
        rewrite !frees_app, !used_app, !frees_cons, !used_cons, Fe. cbn [with_free e_free].
        rewrite U1, U2. rewrite !bytes_app, !bytes_cons, !app_length. cbn [length with_free e_size].
        rewrite frees_app, used_app, frees_cons, used_cons, Fe, !bytes_app, !bytes_cons, !app_length in Nums. cbn [length] in Nums.
        rewrite !app_length in Ln. cbn [length] in Ln.

        pose proof (consec_bounds _ _ _ Cs Ie) as [_ [Pe _]].
        clear -Pe F1 F2 N1 N2 Z1 Z2 Mr1 Mr2 Nums Ps Hc Ln.
        f_equal.
        * rewrite wrap_small by (unfold is_u; lia); lia.
        * rewrite wrap_small by (unfold is_u; lia); lia.
        * rewrite wrap_add_l, <- Z.add_assoc, wrap_add_l; rewrite wrap_small by (unfold is_u; lia); lia.
        * rewrite wrap_small by (unfold is_u; lia); lia.
        * rewrite !wrap_add_l; f_equal; lia.
        * rewrite !wrap_add_l; f_equal; lia.
  Qed.

  (** ** Histories *)
  Lemma reach_inv cap st live t : 0 < cap < 2 ^ 64 -> reach cap st live t -> exists lay fr, inv cap st live t lay fr.
  Proof.
    intros Hc H. induction H as [st E|st live t size al st' H IH R E|st live t size al st' p b r H IH R E Eb Er|st live1 r live2 t st' H IH E].
    - destruct (inv_new cap Hc) as (st0 & E0 & I). rewrite E in E0. injection E0 as ->. eauto.
    - destruct IH as (lay & fr & I). destruct (pick (blocks st) size al (candidates Buckets Bias fr size)) as [[p d]|] eqn:P.
      + destruct (pick_some _ _ _ _ _ _ _ _ _ _ _ (i_core _ _ _ _ _ _ I) (candidates_free _ _ _ _ _ _ size I) P) as (e & Ie & <- & Fe & Ed & Fit).
        destruct (in_ent_split _ _ Ie) as (l1 & l2 & ->).
        assert (find_block Buckets Bias st size al = Ok (Some (e_id e, d))) as Fd.
        { rewrite (find_ok Buckets Bias HB HBias st (l1 ++ e :: l2) fr size al cap); try apply I; [|done]. by rewrite P. }
        destruct (alloc_inv _ _ _ _ _ _ _ _ _ _ _ I R Fe Ed Fit Fd) as (st2 & b & lay' & fr' & Al & _). congruence.
      + destruct (alloc_none _ _ _ _ _ _ _ _ I R P) as [Al _]. rewrite E in Al. injection Al as ->. eauto.
    - destruct IH as (lay & fr & I). destruct (pick (blocks st) size al (candidates Buckets Bias fr size)) as [[q d]|] eqn:P.
      + destruct (pick_some _ _ _ _ _ _ _ _ _ _ _ (i_core _ _ _ _ _ _ I) (candidates_free _ _ _ _ _ _ size I) P) as (e & Ie & <- & Fe & Ed & Fit).
        destruct (in_ent_split _ _ Ie) as (l1 & l2 & ->).
        assert (find_block Buckets Bias st size al = Ok (Some (e_id e, d))) as Fd.
        { rewrite (find_ok Buckets Bias HB HBias st (l1 ++ e :: l2) fr size al cap); try apply I; [|done]. by rewrite P. }
        destruct (alloc_inv _ _ _ _ _ _ _ _ _ _ _ I R Fe Ed Fit Fd) as (st2 & b2 & lay' & fr' & Al & _ & Eb2 & _ & _ & _ & K).
        rewrite E in Al. injection Al as -> ->. rewrite Eb in Eb2. injection Eb2 as ->. exists lay', fr'. by apply K.
      + destruct (alloc_none _ _ _ _ _ _ _ _ I R P) as [Al _]. congruence.
    - destruct IH as (lay & fr & I). destruct (free_inv _ _ _ _ _ _ _ _ I) as (l1 & e & l2 & st2 & lay' & fr' & _ & _ & _ & Fr & _ & I2).
      rewrite E in Fr. injection Fr as ->. eauto.
  Qed.
  (** What [allocate] answers. *)
  Lemma alloc_cases cap st live t lay fr size al : inv cap st live t lay fr -> request size al ->
    (allocate Buckets Bias st size al = Ok (st, None) /\
      (forall e, e ∈ lay -> e_free e = true -> e_size e < size + pad (e_start e) al)) \/
    (exists l1 e l2 st' b, lay = l1 ++ e :: l2 /\ e_free e = true /\ size + pad (e_start e) al <= e_size e /\
      allocate Buckets Bias st size al = Ok (st', Some (e_id e)) /\ blocks st' !! e_id e = Some b /\
      b_offset b = e_start e + pad (e_start e) al /\ b_length b = size /\ b_padding b = pad (e_start e) al).
  Proof.
    intros I R. destruct (pick (blocks st) size al (candidates Buckets Bias fr size)) as [[q d]|] eqn:P.
    - right. destruct (pick_some _ _ _ _ _ _ _ _ _ _ _ (i_core _ _ _ _ _ _ I) (candidates_free _ _ _ _ _ _ size I) P) as (e & Ie & <- & Fe & Ed & Fit).
      destruct (in_ent_split _ _ Ie) as (l1 & l2 & ->).
      assert (find_block Buckets Bias st size al = Ok (Some (e_id e, d))) as Fd.
      { rewrite (find_ok Buckets Bias HB HBias st (l1 ++ e :: l2) fr size al cap); try apply I; [|done]. by rewrite P. }
      destruct (alloc_inv _ _ _ _ _ _ _ _ _ _ _ I R Fe Ed Fit Fd) as (st2 & b2 & lay' & fr' & Al & _ & Eb2 & B1 & B2 & B3 & _).
      subst d. exists l1, e, l2, st2, b2. done.
    - left. by eapply alloc_none.
  Qed.
End reach.
