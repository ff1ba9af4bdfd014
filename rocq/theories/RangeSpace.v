(** Bytes, gaps and room: the layout seen from outside. *)
From stdpp Require Import gmap.
From Verif Require Import Word MathModel MathProofs RangeModel RangeSpec RangeProofs RangeInv RangeReach.
Open Scope Z_scope.

Definition within (e : ent) (x : Z) : Prop := e_start e <= x < e_start e + e_size e.

Lemma consec_find s lay x : consec s lay -> s <= x < s + bytes lay -> exists e, e ∈ lay /\ within e x.
Proof.
  revert s. induction lay as [|a l IH]; intros s.
  - unfold bytes. cbn. lia.
  - intros (H1 & H2 & H3) Hx. rewrite bytes_cons in Hx. destruct (decide (x < s + e_size a)).
    + exists a. split; [apply elem_of_list_here|]. unfold within. lia.
    + destruct (IH _ H3) as (e & ? & ?); [lia|]. exists e. split; [by apply elem_of_list_further|done].
Qed.
Lemma consec_disjoint s lay e1 e2 x : consec s lay -> e1 ∈ lay -> e2 ∈ lay -> within e1 x -> within e2 x -> e1 = e2.
Proof.
  revert s. induction lay as [|a l IH]; intros s; [by intros _ []%elem_of_nil|].
  intros (H1 & H2 & H3) I1 I2 W1 W2. unfold within in *.
  apply elem_of_cons in I1 as [->|I1]; apply elem_of_cons in I2 as [->|I2]; [done| | |eauto].
  - pose proof (consec_bounds _ _ _ H3 I2). lia.
  - pose proof (consec_bounds _ _ _ H3 I1). lia.
Qed.
Lemma pad_least s al o : 0 < al -> s <= o -> (al | o) -> s + pad s al <= o.
Proof.
  intros Ha Hs D. destruct (pad_aligned s al Ha) as [k Hk]. destruct D as [j ->]. pose proof (pad_range s al Ha).
  assert (k <= j); [|nia]. assert (k * al < (j + 1) * al) by lia. nia.
Qed.
Lemma consec_starts s lay : consec s lay -> NoDup (map (fun e => (e_start e, e_size e)) lay).
Proof.
  revert s. induction lay as [|a l IH]; intros s; [intros; apply NoDup_nil_2|]. intros (H1 & H2 & H3). cbn.
  apply NoDup_cons. split; [|by eapply IH]. intros (e & E & Ie)%elem_of_list_fmap. injection E as E1 E2.
  pose proof (consec_bounds _ _ _ H3 Ie). lia.
Qed.
Lemma foldl_wrap l a : foldl (fun a n => wrap 64 (a + n)) (wrap 64 a) l = wrap 64 (a + sumZ l).
Proof.
  revert a. induction l as [|n l IH]; intros a; cbn [foldl].
  - unfold sumZ. cbn. by rewrite Z.add_0_r.
  - rewrite wrap_add_l, IH. f_equal. unfold sumZ. cbn. lia.
Qed.

  Lemma rkey_fields r e : rkey r = ekey e -> r_id r = e_id e /\ r_offset r - r_padding r = e_start e /\
    r_offset r + r_length r = e_start e + e_size e /\ r_offset r = e_off e.
  Proof. unfold rkey, ekey. intros [= -> -> -> ->]. lia. Qed.
  Lemma sum_lengths l : sumZ (lengths l) = Z.of_nat (length (List.concat l)).
  Proof.
    induction l as [|x l IH]; [done|]. unfold lengths, sumZ in *. cbn. rewrite app_length. lia.
  Qed.
Section space.
  Context (Buckets : nat) (Bias : Z) (HB : (1 <= Buckets <= 255)%nat) (HBias : 0 <= Bias).
  Notation bidx := (bidx Buckets Bias).
  Notation inv := (inv Buckets Bias).
  Context (cap : Z) (st : ra) (live : list range) (t : totals) (lay : list ent) (fr : list (list nat)).
  Context (I : inv cap st live t lay fr).

  Lemma live_used r : r ∈ live -> exists e, e ∈ lay /\ e_free e = false /\ rkey r = ekey e.
  Proof.
    intros Hr. assert (rkey r ∈ map ekey (used lay)) as H.
    { rewrite <- (i_live _ _ _ _ _ _ _ _ I). apply elem_of_list_fmap. by exists r. }
    apply elem_of_list_fmap in H as (e & Ek & He). apply elem_of_list_filter in He as [Fe Ie]. eauto.
  Qed.
  Lemma used_live e : e ∈ lay -> e_free e = false -> exists r, r ∈ live /\ rkey r = ekey e.
  Proof.
    intros Ie Fe. assert (ekey e ∈ map rkey live) as H.
    { rewrite (i_live _ _ _ _ _ _ _ _ I). apply elem_of_list_fmap. exists e. split; [done|]. by apply elem_of_list_filter. }
    apply elem_of_list_fmap in H as (r & Ek & He). eauto.
  Qed.
  Lemma covered_used x : covered live x <-> exists e, e ∈ lay /\ e_free e = false /\ within e x.
  Proof.
    split.
    - intros (r & Hr & Hx). destruct (live_used r Hr) as (e & Ie & Fe & Ek). apply rkey_fields in Ek.
      exists e. split_and!; [done|done|]. unfold within. lia.
    - intros (e & Ie & Fe & Wx). destruct (used_live e Ie Fe) as (r & Hr & Ek). apply rkey_fields in Ek.
      exists r. split; [done|]. unfold within in Wx. lia.
  Qed.
  Lemma free_at x : 0 <= x < cap -> ~ covered live x -> exists e, e ∈ lay /\ e_free e = true /\ within e x.
  Proof.
    intros Hx Nc. destruct (consec_find 0 lay x) as (e & Ie & We); [apply I| |].
    - rewrite (i_bytes _ _ _ _ _ _ _ _ I). lia.
    - exists e. split_and!; [done| |done]. destruct (e_free e) eqn:Fe; [done|]. destruct Nc. apply covered_used. eauto.
  Qed.
  Lemma free_ent_clear e x : e ∈ lay -> e_free e = true -> within e x -> ~ covered live x.
  Proof.
    intros Ie Fe We (a & Ia & Fa & Wa)%covered_used.
    pose proof (consec_disjoint 0 lay a e x (i_consec _ _ _ _ _ _ _ _ I) Ia Ie Wa We). congruence.
  Qed.
  Lemma ent_gap e : e ∈ lay -> e_free e = true -> gap cap live (e_start e) (e_size e).
  Proof.
    intros Ie Fe. pose proof (consec_bounds _ _ _ (i_consec _ _ _ _ _ _ _ _ I) Ie) as B.
    rewrite (i_bytes _ _ _ _ _ _ _ _ I) in B.
    destruct (in_ent_split _ _ Ie) as (l1 & l2 & E).
    pose proof (i_noadj _ _ _ _ _ _ _ _ I) as Na. pose proof (i_consec _ _ _ _ _ _ _ _ I) as Cs. pose proof (i_bytes _ _ _ _ _ _ _ _ I) as Hb.
    rewrite E in Na, Cs, Hb. apply (noadj_app Buckets HB) in Na as (_ & [Na2 _] & Na3). apply consec_app in Cs as [C1 (C2 & C3 & C4)].
    rewrite bytes_app, bytes_cons in Hb.
    split_and!; try lia.
    - intros x Hx. by apply free_ent_clear with e.
    - destruct l1 as [|v l1 _] using rev_ind.
      + left. rewrite C2. done.
      + right. apply covered_used. exists v. split_and!.
        * rewrite E. apply elem_of_app. left. apply elem_of_app. right. apply elem_of_list_here.
        * destruct (e_free v) eqn:Fv; [|done]. destruct Na3. cbn [headf]. split; [|done].
          unfold lastf. by rewrite last_snoc.
        * apply consec_app in C1 as [_ (V1 & V2 & _)]. rewrite bytes_app, bytes_cons in C2. change (bytes []) with 0 in C2.
          unfold within. lia.
    - destruct l2 as [|n l2].
      + left. change (bytes []) with 0 in Hb. lia.
      + right. apply covered_used. exists n. split_and!.
        * rewrite E. apply elem_of_app. right. apply elem_of_list_further, elem_of_list_here.
        * destruct (e_free n) eqn:Fn; [|done]. destruct Na2. done.
        * destruct C4 as (V1 & V2 & _). unfold within. lia.
  Qed.
  Lemma gap_ent s n : gap cap live s n -> exists e, e ∈ lay /\ e_free e = true /\ e_start e = s /\ e_size e = n.
  Proof.
    intros (G1 & G2 & G3 & G4 & G5 & G6).
    destruct (free_at s) as (e & Ie & Fe & We); [lia|apply G4; lia|].
    pose proof (ent_gap e Ie Fe) as (E1 & E2 & E3 & E4 & E5 & E6). unfold within in We.
    exists e. split; [done|]. split; [done|].
    assert (e_start e = s) as <-.
    { destruct (decide (e_start e = s)); [done|]. destruct G5 as [->|G5]; [lia|]. destruct (E4 (s - 1)); [lia|done]. }
    split; [done|]. destruct (Z.lt_trichotomy (e_size e) n) as [L|[->|L]]; [|done|].
    - destruct E6 as [E6|E6]; [lia|]. destruct (G4 (e_start e + e_size e)); [lia|done].
    - destruct G6 as [G6|G6]; [lia|]. destruct (E4 (e_start e + n)); [lia|done].
  Qed.
  Lemma room_ent size al : 0 < size -> 0 < al ->
    has_room cap live size al <-> exists e, e ∈ lay /\ e_free e = true /\ size + pad (e_start e) al <= e_size e.
  Proof.
    intros Hs Ha. split.
    - intros (o & O1 & O2 & O3 & O4). destruct (free_at o) as (e & Ie & Fe & We); [lia|apply O4; lia|].
      exists e. split_and!; [done|done|]. unfold within in We. pose proof (pad_least (e_start e) al o Ha ltac:(lia) O2).
      pose proof (ent_gap e Ie Fe) as (E1 & E2 & E3 & E4 & E5 & E6).
      assert (o + size <= e_start e + e_size e); [|lia].
      destruct (decide (o + size <= e_start e + e_size e)); [done|]. destruct E6 as [E6|E6]; [lia|].
      destruct (O4 (e_start e + e_size e)); [lia|done].
    - intros (e & Ie & Fe & Fit). pose proof (ent_gap e Ie Fe) as (E1 & E2 & E3 & E4 & _).
      pose proof (pad_range (e_start e) al Ha). exists (e_start e + pad (e_start e) al).
      split_and!; [lia|by apply pad_aligned|lia|]. intros x Hx. apply E4. lia.
  Qed.

  (** The free lists hold the free blocks, by class. *)
  Lemma concat_perm : List.concat fr ≡ₚ ids (frees lay).
  Proof.
    pose proof (i_core _ _ _ _ _ _ _ _ I) as C. apply NoDup_Permutation.
    - by eapply free_concat_nodup.
    - unfold ids. apply NoDup_fmap_2_strong.
      + intros e1 e2 [_ H1]%elem_of_list_filter [_ H2]%elem_of_list_filter. by apply (ids_inj lay); [apply C|..].
      + apply NoDup_filter. eapply NoDup_fmap_1. exact (c_nodup _ _ _ _ _ _ C).
    - intros p. rewrite (free_elems Buckets Bias HB HBias _ _ lay fr p C).
      + split.
        * intros (e & Ie & <- & Fe). apply elem_of_list_fmap. exists e. split; [done|]. by apply elem_of_list_filter.
        * intros (e & -> & [Fe Ie]%elem_of_list_filter)%elem_of_list_fmap. eauto.
      + apply I.
      + apply I.
      + rewrite (i_bytes _ _ _ _ _ _ _ _ I). apply (i_cap _ _ _ _ _ _ _ _ I).
  Qed.
  Lemma bucket_count k l : fr !! k = Some l -> length l = length (filter (fun e => bidx (e_size e) = k) (frees lay)).
  Proof.
    intros Hk. pose proof (i_core _ _ _ _ _ _ _ _ I) as C.
    rewrite <- (fmap_length e_id (filter _ _)). apply Permutation_length, NoDup_Permutation.
    - by eapply c_frnd.
    - apply NoDup_fmap_2_strong.
      + intros e1 e2 [_ [_ H1]%elem_of_list_filter]%elem_of_list_filter [_ [_ H2]%elem_of_list_filter]%elem_of_list_filter.
        by apply (ids_inj lay); [apply C|..].
      + apply NoDup_filter, NoDup_filter. eapply NoDup_fmap_1. exact (c_nodup _ _ _ _ _ _ C).
    - intros p. rewrite (c_fr _ _ _ _ _ _ C _ _ _ Hk). split.
      + intros (e & Ie & <- & Fe & Be). apply elem_of_list_fmap. exists e. split; [done|].
        apply elem_of_list_filter. split; [done|]. by apply elem_of_list_filter.
      + intros (e & -> & [Be [Fe Ie]%elem_of_list_filter]%elem_of_list_filter)%elem_of_list_fmap. eauto.
  Qed.
  (** With nothing live there is one block. *)
  Lemma empty_layout : live = [] -> exists e, lay = [e] /\ e_free e = true /\ e_start e = 0 /\ e_size e = cap.
  Proof.
    intros E. pose proof (i_live _ _ _ _ _ _ _ _ I) as Lv. rewrite E in Lv. cbn in Lv.
    pose proof (i_noadj _ _ _ _ _ _ _ _ I) as Na. pose proof (i_consec _ _ _ _ _ _ _ _ I) as Cs.
    pose proof (i_bytes _ _ _ _ _ _ _ _ I) as Hb. pose proof (i_cap _ _ _ _ _ _ _ _ I) as Hc.
    apply Permutation_nil_l in Lv. symmetry in Lv. apply map_eq_nil in Lv.
    assert (forall e, e ∈ lay -> e_free e = true) as A.
    { intros e Ie. destruct (e_free e) eqn:Fe; [done|]. assert (e ∈ used lay) as H by (by apply elem_of_list_filter).
      rewrite Lv in H. by apply elem_of_nil in H. }
    destruct lay as [|a [|b l]].
    - change (bytes []) with 0 in Hb. lia.
    - exists a. destruct Cs as (C1 & C2 & _). rewrite bytes_cons in Hb. change (bytes []) with 0 in Hb.
      split_and!; [done|apply A, elem_of_list_here|done|lia].
    - destruct Na as [Na _]. destruct Na. cbn. split; apply A; [apply elem_of_list_here|apply elem_of_list_further, elem_of_list_here].
  Qed.

  (** ** The destructor *)
  Lemma reset_list_ok l : forall fuel s bef, seg (FL (blocks s)) bef l None -> NoDup l -> (length l <= fuel)%nat ->
    exists s', reset_list fuel s (head l) = Ok s' /\ buckets s' = buckets s /\
      forall q, blocks s' !! q = if decide (q ∈ l) then None else blocks s !! q.
  Proof.
    induction l as [|p l IH]; intros fuel s bef Sg Nd Hf.
    - exists s. destruct fuel; cbn; (split_and!; [done|done|]); intros q; destruct (decide (q ∈ [])) as [H|H]; try done; by apply elem_of_nil in H.
    - destruct fuel as [|fuel]; [cbn in Hf; lia|]. cbn in Hf. destruct Sg as [Sp Sg]. apply NoDup_cons in Nd as [Np Nd].
      unfold FL in Sp. destruct (blocks s !! p) as [b|] eqn:Eb; [|done]. cbn in Sp. injection Sp as _ Sn.
      cbn [head reset_list]. unfold load, destroy. rewrite Eb. cbn [mbind res_bind].
      rewrite Sn.
      destruct (IH fuel (mk_ra (delete p (blocks s)) (buckets s) (st_stats s) (made s)) (Some p)) as (s' & E & Eu & Ebl); [|done|lia|].
      + cbn [blocks]. eapply seg_ext; [|exact Sg]. intros q Hq. unfold FL. rewrite lookup_delete_ne; [done|]. intros ->. done.
      + exists s'. split_and!; [|done|].
        * destruct l; cbn [hd head]; exact E.
        * intros q. rewrite Ebl. cbn [blocks]. destruct (decide (q ∈ l)) as [H|H]; destruct (decide (q ∈ p :: l)) as [H'|H']; try done.
          -- destruct H'. by apply elem_of_list_further.
          -- apply elem_of_cons in H' as [->|H']; [|done]. by rewrite lookup_delete.
          -- rewrite lookup_delete_ne; [done|]. intros ->. destruct H'. apply elem_of_list_here.
  Qed.
  Lemma reset_from_ok n : forall s i, (i + n = length fr)%nat -> length (buckets s) = length fr ->
    (forall k l, (i <= k)%nat -> fr !! k = Some l -> buckets s !! k = Some (head l) /\ seg (FL (blocks s)) None l None) ->
    NoDup (List.concat fr) ->
    exists s', reset_from n s (Z.of_nat i) = Ok s' /\
      forall q, blocks s' !! q = if decide (q ∈ List.concat (drop i fr)) then None else blocks s !! q.
  Proof.
    induction n as [|n IH]; intros s i Hi Lb H Nd.
    - exists s. split; [done|]. intros q. rewrite drop_ge by lia. cbn. destruct (decide (q ∈ [])) as [Hq|]; [|done]. by apply elem_of_nil in Hq.
    - destruct (lookup_lt_is_Some_2 fr i) as [l El]; [lia|]. destruct (H i l (le_n i) El) as [Hb Hs].
      cbn [reset_from]. unfold bucket at 1. rewrite Nat2Z.id, Hb. cbn [mbind res_bind].
      assert (NoDup l) as Nl.
      { rewrite <- (take_drop_middle _ _ _ El), concat_app in Nd. apply NoDup_app in Nd as (_ & _ & Nd). cbn in Nd. by apply NoDup_app in Nd as (? & _). }
      assert (length l <= base.size (blocks s))%nat as Ls.
      { rewrite <- size_dom. rewrite <- (size_list_to_set (C := gset nat)) by done.
        apply subseteq_size. intros p Hp%elem_of_list_to_set. apply elem_of_dom.
        clear -Hs Hp. revert Hs. generalize (None : option nat) at 1 as bef. induction l as [|a l IH]; intros bef; [by apply elem_of_nil in Hp|].
        intros [E Sg]. apply elem_of_cons in Hp as [->|Hp]; [|by eapply IH]. unfold FL in E. by destruct (blocks s !! a). }
      destruct (reset_list_ok l _ s None Hs Nl Ls) as (s1 & E1 & Bu1 & Bl1).
      rewrite E1. cbn [mbind res_bind]. replace (Z.of_nat i + 1) with (Z.of_nat (S i)) by lia.
      destruct (IH (set_bucket s1 (Z.of_nat i) None) (S i)) as (s2 & E2 & Bl2); [lia| | |done|].
      + cbn. by rewrite insert_length, Bu1.
      + intros k m Hk Em. unfold set_bucket. cbn [buckets blocks]. rewrite Nat2Z.id, list_lookup_insert_ne by lia. rewrite Bu1.
        destruct (H k m ltac:(lia) Em) as [Hb2 Hs2]. split; [done|]. eapply seg_ext; [|exact Hs2].
        intros q Hq. unfold FL. rewrite Bl1. destruct (decide (q ∈ l)) as [Hl|]; [|done]. exfalso.
        rewrite <- (take_drop_middle _ _ _ El), concat_app in Nd. apply NoDup_app in Nd as (_ & _ & Nd). cbn in Nd.
        apply NoDup_app in Nd as (_ & Nd & _). apply (Nd q Hl). apply elem_of_concat. exists (k - S i)%nat, m.
        split; [|done]. rewrite lookup_drop. rewrite <- Em. f_equal. lia.
      + exists s2. split; [done|]. intros q. rewrite Bl2. cbn [set_bucket blocks]. rewrite Bl1, (drop_S _ _ _ El). cbn.
        destruct (decide (q ∈ List.concat (drop (S i) fr))) as [A|A]; destruct (decide (q ∈ l ++ List.concat (drop (S i) fr))) as [B|B]; try done.
        * destruct B. apply elem_of_app. by right.
        * apply elem_of_app in B as [B|B]; [|done]. by rewrite decide_True.
        * rewrite decide_False; [done|]. intros Q. destruct B. apply elem_of_app. by left.
  Qed.
  Lemma reset_ok : exists s', reset Buckets st = Ok s' /\
    forall q, is_Some (blocks s' !! q) <-> exists r, r ∈ live /\ r_id r = q.
  Proof.
    pose proof (i_core _ _ _ _ _ _ _ _ I) as C.
    destruct (reset_from_ok Buckets st 0) as (s' & E & Bl).
    - by rewrite (i_len _ _ _ _ _ _ _ _ I).
    - apply C.
    - intros k l _ Hk. by apply C.
    - by eapply free_concat_nodup.
    - exists s'. split; [exact E|]. intros q. rewrite Bl, drop_0.
      assert (q ∈ List.concat fr <-> exists e, e ∈ lay /\ e_id e = q /\ e_free e = true) as Hq.
      { rewrite concat_perm. unfold ids. change (map e_id (frees lay)) with (e_id <$> frees lay). rewrite elem_of_list_fmap.
        split; [intros (e & -> & [? ?]%elem_of_list_filter); eauto|intros (e & ? & <- & ?); exists e; split; [done|by apply elem_of_list_filter]]. }
      destruct (decide (q ∈ List.concat fr)) as [H|H].
      + split; [by intros [? ?]|]. intros (r & Hr & <-). apply live_used in Hr as (e & Ie & Fe & Ek). apply rkey_fields in Ek as (Ei & _).
        apply Hq in H as (a & Ia & Ea & Fa). assert (a = e); [|congruence].
        apply (ids_inj lay); [apply C|done|done|congruence].
      + split.
        * intros Hs. apply (c_dom _ _ _ _ _ _ C) in Hs. apply elem_of_list_fmap in Hs as (e & -> & Ie).
          destruct (e_free e) eqn:Fe; [destruct H; apply Hq; eauto|]. destruct (used_live e Ie Fe) as (r & Hr & Ek).
          apply rkey_fields in Ek as (Ei & _). eauto.
        * intros (r & Hr & <-). apply live_used in Hr as (e & Ie & Fe & Ek). apply rkey_fields in Ek as (Ei & _).
          destruct (core_here _ _ _ _ _ _ _ C Ie) as (b & Eb & _). rewrite Ei, Eb. by eexists.
  Qed.
End space.
Close Scope Z_scope.
