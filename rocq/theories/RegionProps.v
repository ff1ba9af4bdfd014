(** Properties of the region allocator. *)
From Verif Require Import Base Word RegionModel RegionSpec RegionProofs.
Open Scope Z_scope.

Lemma level_next offs brands r r' rs cs :
  level offs brands (r :: r' :: rs) cs -> exists S, extends S cs /\ level offs brands (r' :: rs) S.
Proof. intros (_ & _ & _ & _ & H). exact H. Qed.

(** One step from a good state. *)
Lemma step_cases st rs o : inv st rs -> sane o ->
  (exists st' p, region_step st o = Ok (st', p) /\ permitted rs o /\ inv st' (note rs o p)) \/
  (region_step st o = Die /\
   (~ permitted rs o \/
    exists b n refuse, o = RAlloc b n refuse /\
      (refuse = true \/ 2 ^ 63 - SIZEOF_CHUNK <= n \/ exists c, c ∈ chunks st /\ 2 ^ 62 - SIZEOF_CHUNK <= csize c))).
Proof.
  intros H SN. destruct (inv_top _ _ H) as (r & rs' & c & cs & ER & EC & ED & EO & EB & CH & LA).
  destruct o as [b|b|b n refuse|b]; cbn [region_step permitted sane note] in *.
  - rewrite (begin_step _ _ _ H). change MAX_REGION_DEPTH with 128%nat.
    destruct (Nat.ltb_spec (length rs) 128) as [L|L]; cbn [mbind res_bind].
    + left. eexists _, _. split_and!; [done|done|]. by apply begin_inv.
    + right. split; [done|]. left. lia.
  - subst rs. destruct rs' as [|r' rs'].
    + right. unfold region_end. rewrite ED. cbn. split; [done|]. left. lia.
    + destruct (level_next _ _ _ _ _ _ (inv_level _ _ H)) as (S & EX & LV).
      destruct (end_step _ _ b _ _ _ _ H eq_refl EX LV) as (gone & -> & HI & _).
      cbn [head fmap option_fmap option_map]. destruct (decide (obrand r = b)) as [<-|N]; cbn [mbind res_bind].
      * left. eexists _, _. split_and!; [done|cbn; lia|done|done].
      * right. split; [done|]. left. intros [_ X]. congruence.
  - rewrite (alloc_step _ _ b n refuse _ _ _ _ H ER EC) by done. subst rs. cbn [head fmap option_fmap option_map].
    destruct (decide (obrand r = b)) as [<-|N]; [|right; split; [done|left; congruence]].
    destruct (Z.ltb_spec (csize c - cused c) n) as [FULL|FIT].
    + pose proof (chain_head _ _ CH) as (? & ? & ?).
      destruct (refuse || _) eqn:R; cbn [mbind res_bind].
      * right. split; [done|]. right. exists (obrand r), n, refuse. split; [done|].
        apply orb_true_iff in R as [->|R]; [by left|right]. apply Z.leb_le in R.
        change SIZEOF_CHUNK with 24. change (2 ^ 63) with (2 * 2 ^ 62) in *.
        destruct (decide (2 * 2 ^ 62 - 24 <= n)); [by left|right]. exists c. rewrite EC. split; [apply elem_of_list_here|]. lia.
      * apply orb_false_iff in R as [_ R]. apply Z.leb_gt in R.
        left. eexists _, _. split_and!; [done|done|]. cbn [note].
        eapply alloc_new_chunk; try done; lia.
    + left. eexists _, _. split_and!; [done|done|]. cbn [note]. eapply alloc_in_place; try done; lia.
  - unfold region_free. rewrite (assert_brand_eq _ _ _ H). destruct (decide _) as [E|N]; cbn [mbind res_bind].
    + left. eexists _, _. done.
    + right. split; [done|]. by left.
Qed.

Lemma history_inv os : forall st rs, inv st rs -> Forall sane os ->
  match history st rs os with Ok (st', rs') => inv st' rs' | Die => True | _ => False end.
Proof.
  induction os as [|o os IH]; intros st rs H S; cbn [history]; [done|].
  apply Forall_cons in S as [S1 S2].
  destruct (step_cases _ _ o H S1) as [(st' & p & -> & _ & HI)|[-> _]]; cbn [mbind res_bind]; [|done].
  by apply IH.
Qed.
Lemma from_start_inv os st rs : Forall sane os -> from_start os = Ok (st, rs) -> inv st rs.
Proof. intros S E. pose proof (history_inv os _ _ inv_init S) as X. unfold from_start in E. by rewrite E in X. Qed.

(** ** C32 *)
(** Whatever is allocated and still in an open region lies in a chunk the
    allocator owns and has not given back, and no two overlap.  Requests within
    24 bytes of 2^64 are excluded: see the refutation. *)
Theorem region_allocations_disjoint_partial : forall os st rs,
  Forall sane os -> from_start os = Ok (st, rs) ->
  ForallOrdPairs disjoint (live rs) /\
  Forall (owned st) (live rs) /\
  (forall c, c ∈ chunks st -> cblock c ∉ freed st).
Proof.
  intros os st rs S E. pose proof (from_start_inv _ _ _ S E) as H.
  destruct (inv_top _ _ H) as (r & rs' & c & cs & ER & EC & ED & EO & EB & CH & LA).
  split_and!.
  - by eapply laid_disjoint.
  - apply laid_within in LA as [W _]. eapply Forall_impl; [exact W|].
    intros a (A0 & c1 & H1 & E1 & L1 & L2). exists c1. rewrite EC. split_and!; try done.
    assert (cused c1 <= csize c1); [|change SIZEOF_CHUNK with 24; lia].
    clear -CH H1. revert c CH H1. induction cs as [|c' cs IH]; intros c CH H1.
    + apply elem_of_list_singleton in H1 as ->. cbn in CH. lia.
    + rewrite chain_cons in CH. destruct CH as (? & ? & ? & CH). apply elem_of_cons in H1 as [->|H1]; [lia|].
      by apply (IH c').
  - intros c1 H1 F. pose proof (inv_blocks _ _ H) as P.
    assert (NoDup ((cblock <$> chunks st) ++ freed st)) as ND by (rewrite P; apply NoDup_seq).
    apply NoDup_app in ND as (_ & ND & _). apply (ND (cblock c1)); [|done]. apply elem_of_list_fmap. eauto.
Qed.
(** A request close to 2^64 is granted out of a 2 KB chunk. *)
Theorem region_huge_request_refuted :
  exists os st rs a, from_start os = Ok (st, rs) /\ a ∈ live rs /\ ~ owned st a /\ asize a = 2 ^ 64 - 8.
Proof.
  eexists [RAlloc 0 (2 ^ 64 - 8) false], _, _, (mk_alloc 1 24 (2 ^ 64 - 8)).
  split; [vm_compute; reflexivity|]. split; [apply elem_of_list_here|]. split; [|done].
  intros (c & Hc & Eb & _ & L). apply elem_of_cons in Hc as [->|Hc]; [vm_compute in L; by apply L|].
  apply elem_of_list_singleton in Hc as ->. cbn in Eb. lia.
Qed.
Example region_disjoint_ex : exists st rs,
  from_start [RBegin 7; RAlloc 7 100 false; RBegin 8; RAlloc 8 2000 false; RAlloc 8 0 false; RAlloc 8 24 false] = Ok (st, rs) /\
  live rs = [mk_alloc 1 2024 24; mk_alloc 1 2024 0; mk_alloc 1 24 2000; mk_alloc 0 24 100].
Proof. eexists _, _. split; vm_compute; reflexivity. Qed.

(** The counters the program can ask for. *)
Theorem region_counters : forall os st rs,
  Forall sane os -> from_start os = Ok (st, rs) ->
  S (region_depth st) = length rs /\ region_size st = Ok (total (live rs)).
Proof.
  intros os st rs S E. pose proof (from_start_inv _ _ _ S E) as H.
  destruct (inv_top _ _ H) as (r & rs' & c & cs & ER & EC & ED & EO & EB & CH & LA).
  unfold region_depth, region_size. rewrite ED, ER. split; [done|].
  rewrite (at_ok _ _ _ EO). rewrite <- ER, (laid_total _ _ LA). done.
Qed.

(** ** C33 *)
Lemma history_app os1 os2 : forall st rs,
  history st rs (os1 ++ os2) = ('(st', rs') ← history st rs os1; history st' rs' os2).
Proof.
  induction os1 as [|o os1 IH]; intros st rs; [done|]. cbn [app history].
  destruct (region_step st o) as [[st1 p]| | |]; cbn [mbind res_bind]; [apply IH|done..].
Qed.

(** [st'] differs from [st] by work on top of [rs]. *)
Definition above (st st' : region_state) (rs : list open_region) : Prop :=
  (forall i, (i < length rs)%nat -> region_offsets st' !! i = region_offsets st !! i /\
                            region_brands st' !! i = region_brands st !! i) /\
  (forall S, extends S (chunks st) -> extends S (chunks st')) /\
  (exists l, freed st' = freed st ++ l) /\ (mallocs st <= mallocs st')%nat.
Lemma above_refl st rs : above st st rs.
Proof. split_and!; try done. exists []. by rewrite app_nil_r. Qed.
Lemma above_trans st1 st2 st3 rs : above st1 st2 rs -> above st2 st3 rs -> above st1 st3 rs.
Proof.
  intros (A1 & A2 & (l & A3) & A4) (B1 & B2 & (l' & B3) & B4). split_and!.
  - intros i Hi. destruct (B1 i Hi) as [-> ->]. by apply A1.
  - auto.
  - exists (l ++ l'). by rewrite B3, A3, app_assoc.
  - lia.
Qed.

Lemma alloc_above st r rs b n refuse st' p : inv st (r :: rs) -> 0 <= n < 2 ^ 64 - 24 ->
  region_alloc st b n refuse = Ok (st', p) -> above st st' rs.
Proof.
  intros H N E. destruct (inv_top _ _ H) as (r0 & rs0 & c & cs & ER & EC & ED & EO & EB & CH & LA).
  injection ER as <- <-. rewrite (alloc_step _ _ b n refuse _ _ _ _ H eq_refl EC) in E by done.
  destruct (decide _); [|done]. destruct (Z.ltb_spec (csize c - cused c) n) as [FULL|FIT].
  - destruct (refuse || _); [done|]. injection E as <- _.
    pose proof (chain_head _ _ CH) as (? & ? & ?).
    split_and!; cbn [grown region_offsets region_brands chunks freed mallocs].
    + intros i Hi. rewrite list_lookup_insert_ne by lia. done.
    + intros S. rewrite EC. intros X. apply extends_push; [done|]. cbn. lia.
    + exists []. by rewrite app_nil_r.
    + lia.
  - injection E as <- _. split_and!; cbn [grown region_offsets region_brands chunks freed mallocs].
    + intros i Hi. rewrite list_lookup_insert_ne by lia. done.
    + intros S. rewrite EC. intros X. apply extends_grow; [done|lia].
    + exists []. by rewrite app_nil_r.
    + lia.
Qed.

Lemma balanced_above os : balanced os -> forall st r rs st' rs',
  inv st (r :: rs) -> Forall sane os -> history st (r :: rs) os = Ok (st', rs') ->
  exists r', rs' = r' :: rs /\ obrand r' = obrand r /\ above st st' rs /\ inv st' rs'.
Proof.
  induction 1 as [|b n rf os HB IH|b os HB IH|b b' os os' HB IH HB' IH']; intros st r rs st' rs' H SN E.
  - injection E as <- <-. exists r. split_and!; try done. apply above_refl.
  - apply Forall_cons in SN as [S1 S2]. cbn [history] in E. cbn [region_step] in E.
    destruct (step_cases _ _ _ H S1) as [(st1 & p & E1 & _ & H1)|[E1 _]]; cbn [region_step] in E1; rewrite E1 in E; [|done].
    cbn [mbind res_bind] in E.
    destruct (region_alloc st b n rf) as [[st2 q]| | |] eqn:EA; cbn [mbind res_bind] in E1; [|done..].
    injection E1 as -> <-. destruct q as [blk off]. cbn [note] in E, H1.
    destruct (IH _ _ _ _ _ H1 S2 E) as (r' & -> & B & A & I). exists r'. split_and!; try done.
    eapply above_trans; [|exact A]. eapply alloc_above; [exact H| |exact EA]. exact S1.
  - apply Forall_cons in SN as [S1 S2]. cbn [history] in E.
    destruct (step_cases _ _ _ H S1) as [(st1 & p & E1 & _ & H1)|[E1 _]]; rewrite E1 in E; [|done].
    cbn [mbind res_bind] in E. cbn [region_step] in E1. unfold region_free in E1.
    destruct (assert_brand st b); cbn [mbind res_bind] in E1; [|done..]. injection E1 as <- <-.
    cbn [note] in E, H1. by eapply IH.
  - apply Forall_cons in SN as [S1 SN]. apply Forall_app in SN as [S2 [_ S3]%Forall_cons].
    cbn [history] in E.
    destruct (step_cases _ _ _ H S1) as [(st1 & p & E1 & P1 & H1)|[E1 _]]; rewrite E1 in E; [|done].
    cbn [mbind res_bind note] in E. rewrite history_app in E.
    cbn [region_step] in E1. rewrite (begin_step _ _ _ H) in E1.
    destruct (Nat.ltb_spec (length (r :: rs)) 128); [|done]. cbn [mbind res_bind] in E1. injection E1 as <- <-.
    cbn [note] in H1.
    destruct (history _ _ os) as [[st2 rs2]| | |] eqn:EH; cbn [mbind res_bind] in E; [|done..].
    destruct (IH _ _ _ _ _ H1 S2 EH) as (r2 & -> & B2 & (A1 & A2 & (l2 & A3) & A4) & I2). cbn [obrand] in B2.
    cbn [region_offsets region_brands chunks freed mallocs] in A1, A2, A3, A4.
    cbn [history region_step] in E.
    assert (extends (chunks st) (chunks st2)) as EX.
    { apply A2. destruct (inv_top _ _ H) as (? & ? & c & cs & _ & -> & _). apply extends_refl. }
    assert (level (region_offsets st2) (region_brands st2) (r :: rs) (chunks st)) as LV.
    { eapply level_ext; [|apply (inv_level _ _ H)]. intros i Hi. destruct (A1 i Hi) as [-> ->].
      rewrite !list_lookup_insert_ne by (cbn in *; lia). done. }
    destruct (end_step _ _ b' _ _ _ _ I2 eq_refl EX LV) as (gone & E3 & I3 & _).
    rewrite E3 in E. destruct (decide (obrand r2 = b')); cbn [mbind res_bind] in E; [|done]. cbn [note] in E.
    destruct (IH' _ _ _ _ _ I3 S3 E) as (r' & -> & B & A & I). exists r'. split_and!; try done.
    eapply above_trans; [|exact A]. split_and!.
    + intros i Hi. cbn [ended region_offsets region_brands].
      destruct (A1 i) as [-> ->]; [cbn; lia|]. rewrite !list_lookup_insert_ne by (cbn; lia). done.
    + intros S. cbn [ended chunks]. done.
    + exists (l2 ++ gone). cbn [ended freed]. by rewrite A3, app_assoc.
    + cbn [ended mallocs]. done.
Qed.

(** A region with any balanced work in it leaves no trace: same chunks with
    the same fill, same counters, the user's other allocations untouched, and
    exactly the blocks obtained in between have been given back. *)
Theorem region_end_restores : forall os st rs b body b' st' rs',
  Forall sane os -> from_start os = Ok (st, rs) ->
  balanced body -> Forall sane body ->
  history st rs (RBegin b :: body ++ [REnd b']) = Ok (st', rs') ->
  b' = b /\ rs' = rs /\ chunks st' = chunks st /\ region_depth st' = region_depth st /\
  region_size st' = region_size st /\
  exists given, freed st' = freed st ++ given /\ given ≡ₚ seq (S (mallocs st)) (mallocs st' - mallocs st).
Proof.
  intros os st rs b body b' st' rs' SO EO BB SB E. pose proof (from_start_inv _ _ _ SO EO) as H.
  destruct (inv_top _ _ H) as (r & rs0 & c & cs & -> & EC & ED & EOf & EB & CH & LA).
  cbn [history] in E.
  destruct (step_cases _ _ (RBegin b) H I) as [(st1 & p & E1 & P1 & H1)|[E1 _]]; rewrite E1 in E; [|done].
  cbn [mbind res_bind note] in E. rewrite history_app in E.
  cbn [region_step] in E1. rewrite (begin_step _ _ _ H) in E1.
  destruct (Nat.ltb_spec (length (r :: rs0)) 128); [|done]. cbn [mbind res_bind] in E1. injection E1 as <- <-.
  cbn [note] in H1.
  destruct (history _ _ body) as [[st2 rs2]| | |] eqn:EH; cbn [mbind res_bind] in E; [|done..].
  destruct (balanced_above _ BB _ _ _ _ _ H1 SB EH) as (r2 & -> & B2 & (A1 & A2 & (l2 & A3) & A4) & I2). cbn [obrand] in B2.
  cbn [region_offsets region_brands chunks freed mallocs] in A1, A2, A3, A4.
  cbn [history region_step] in E.
  assert (extends (chunks st) (chunks st2)) as EX.
  { apply A2. rewrite EC. apply extends_refl. }
  assert (level (region_offsets st2) (region_brands st2) (r :: rs0) (chunks st)) as LV.
  { eapply level_ext; [|apply (inv_level _ _ H)]. intros i Hi. destruct (A1 i Hi) as [-> ->].
    rewrite !list_lookup_insert_ne by (cbn in *; lia). done. }
  destruct (end_step _ _ b' _ _ _ _ I2 eq_refl EX LV) as (gone & E3 & I3 & EG).
  rewrite E3 in E. destruct (decide (obrand r2 = b')) as [<-|]; cbn [mbind res_bind] in E; [|done].
  cbn [note] in E. injection E as <- <-.
  destruct (inv_top _ _ I3) as (r3 & rs3 & c3 & cs3 & ER3 & EC3 & ED3 & EO3 & _).
  injection ER3 as <- <-. split_and!; try done.
  - unfold region_depth. by rewrite ED3, ED.
  - unfold region_size. rewrite ED3, ED, (at_ok _ _ _ EO3), (at_ok _ _ _ EOf). cbn [ended chunks] in EC3.
    rewrite EC in EC3. by injection EC3 as <- <-.
  - exists (l2 ++ gone). cbn [ended freed mallocs]. rewrite A3, app_assoc. split; [done|].
    pose proof (inv_blocks _ _ H) as P0. pose proof (inv_blocks _ _ I3) as P3.
    cbn [ended chunks freed mallocs] in P3. rewrite A3, <- !app_assoc, app_assoc, P0 in P3.
    replace (S (mallocs st2)) with (S (mallocs st) + (mallocs st2 - mallocs st))%nat in P3 by lia.
    rewrite seq_app in P3. cbn [Nat.add] in P3. by apply Permutation_app_inv_l in P3.
Qed.
Example region_restores_ex : exists st rs st' rs',
  from_start [RAlloc 0 900 false; RBegin 7; RAlloc 7 50 false] = Ok (st, rs) /\
  balanced [RAlloc 8 60 false; RBegin 9; RAlloc 9 4000 false; REnd 9; RFree 8; RAlloc 8 3000 false] /\
  history st rs (RBegin 8 :: [RAlloc 8 60 false; RBegin 9; RAlloc 9 4000 false; REnd 9; RFree 8; RAlloc 8 3000 false] ++ [REnd 8])
  = Ok (st', rs') /\ mallocs st' = 3%nat /\ freed st' = [2; 3; 1]%nat /\ chunks st' = [mk_chunk 0 1000 950].
Proof.
  eexists _, _, _, _. split; [vm_compute; reflexivity|]. split.
  { constructor. apply (balanced_region 9 9 [RAlloc 9 4000 false]); repeat constructor. }
  split; [vm_compute; reflexivity|]. split_and!; reflexivity.
Qed.

(** Every call either is permitted and succeeds, or stops the program; it stops
    exactly for a wrong owner, a wrong order, too deep a nesting, or when malloc
    refuses.  Nothing is undefined. *)
Theorem region_misuse_stops : forall os st rs o,
  Forall sane os -> from_start os = Ok (st, rs) -> sane o ->
  (~ permitted rs o -> region_step st o = Die) /\
  (permitted rs o ->
     (exists st' p, region_step st o = Ok (st', p)) \/
     region_step st o = Die /\
       exists b n refuse, o = RAlloc b n refuse /\
         (refuse = true \/ 2 ^ 63 - SIZEOF_CHUNK <= n \/ exists c, c ∈ chunks st /\ 2 ^ 62 - SIZEOF_CHUNK <= csize c)).
Proof.
  intros os st rs o SO E S. pose proof (from_start_inv _ _ _ SO E) as H.
  destruct (step_cases _ _ _ H S) as [(st' & p & E1 & P & _)|[E1 [N|W]]]; split; intros X; try done; eauto.
Qed.
Theorem region_history_safe : forall os, Forall sane os -> from_start os <> UB /\ from_start os <> Diverge.
Proof.
  intros os S. pose proof (history_inv os _ _ inv_init S) as X. unfold from_start.
  destruct (history _ _ _); done.
Qed.
Example region_misuse_ex :
  from_start [RBegin 7; RBegin 8; REnd 7] = Die /\ from_start [REnd 0] = Die /\
  from_start [RBegin 7; RBegin 8; RAlloc 7 1 false] = Die /\
  from_start (map RBegin (Z.of_nat <$> seq 1 128)) = Die /\
  exists st rs, from_start (map RBegin (Z.of_nat <$> seq 1 127)) = Ok (st, rs).
Proof. split_and!; try (vm_compute; reflexivity). eexists _, _. vm_compute. reflexivity. Qed.

(** ** C75: alignment *)
(** The allocator never pads: addresses are multiples of 8 (chunks are) as long
    as all sizes are. *)
Theorem region_alignment_partial : forall os st rs,
  Forall sane os -> from_start os = Ok (st, rs) ->
  Forall (fun a => (8 | asize a)) (live rs) -> Forall (fun a => (8 | aoff a)) (live rs).
Proof.
  intros os st rs S E A. pose proof (from_start_inv _ _ _ S E) as H.
  destruct (inv_top _ _ H) as (r & rs' & c & cs & ER & EC & ED & EO & EB & CH & LA).
  cut (Forall (fun a => (8 | aoff a)) (live rs) /\ Forall (fun c => (8 | cused c)) (c :: cs)); [tauto|].
  clear -LA A. induction LA as [c0 U|c0 cs0 al H IH N U|c0 c' cs0 al n H IH L ->].
  - split; [done|]. constructor; [rewrite U; apply Z.divide_0_r|done].
  - destruct (IH A) as [I1 I2]. split; [done|]. constructor; [rewrite U; apply Z.divide_0_r|done].
  - apply Forall_cons in A as [A1 A2]. destruct (IH A2) as [I1 [I2 I3]%Forall_cons]. cbn in A1.
    split; constructor; try done; cbn; apply Z.divide_add_r; try done. by exists 3.
Qed.
Theorem region_alignment_refuted : exists os st rs a,
  Forall sane os /\ from_start os = Ok (st, rs) /\ a ∈ live rs /\ asize a = 8 /\ ~ (8 | aoff a).
Proof.
  eexists [RAlloc 0 1 false; RAlloc 0 8 false], _, _, (mk_alloc 0 25 8).
  split; [repeat constructor; cbn; lia|]. split; [vm_compute; reflexivity|]. split; [apply elem_of_list_here|].
  split; [done|]. intros [k K]. cbn in K. lia.
Qed.
Example region_alignment_ex : exists st rs,
  from_start [RAlloc 0 16 false; RBegin 1; RAlloc 1 1024 false; RAlloc 1 8 false] = Ok (st, rs) /\
  map aoff (live rs) = [1048; 24; 24].
Proof. eexists _, _. split; vm_compute; reflexivity. Qed.

Print Assumptions region_allocations_disjoint_partial.
Print Assumptions region_huge_request_refuted.
Print Assumptions region_counters.
Print Assumptions region_end_restores.
Print Assumptions region_misuse_stops.
Print Assumptions region_history_safe.
Print Assumptions region_alignment_partial.
Print Assumptions region_alignment_refuted.
Close Scope Z_scope.
