(** Proofs about QueueModel: the ring refines a list. *)
From Verif Require Import Slots VecModel QueueModel QueueSpec VecProofs.

Section queue.
  Context {T : Type}.
  Implicit Types (q : queue T) (l : list T) (m : mem T).

  (** Position [x] places round a ring of [c] slots, x < 2c. *)
  Definition ring (c x : nat) : nat := if x <? c then x else x - c.

  Definition slot_of (o : option T) : slot T := match o with Some x => Live x | None => Raw end.

  Lemma ring_lt c x : x < c -> ring c x = x.
  Proof. unfold ring. intros. destruct (Nat.ltb_spec x c); lia. Qed.
  Lemma ring_ge c x : c <= x -> ring c x = x - c.
  Proof. unfold ring. intros. destruct (Nat.ltb_spec x c); lia. Qed.
  Ltac ring_cases := repeat match goal with
    | |- context [ring ?c ?x] => destruct (Nat.lt_ge_cases x c) as [?|?];
        [rewrite (ring_lt c x) by assumption|rewrite (ring_ge c x) by assumption]
    | H : context [ring ?c ?x] |- _ => destruct (Nat.lt_ge_cases x c) as [?|?];
        [rewrite (ring_lt c x) in H by assumption|rewrite (ring_ge c x) in H by assumption]
    end.

  Lemma ring_inj c h i j : h < c -> i < c -> j < c -> ring c (h + i) = ring c (h + j) -> i = j.
  Proof. intros. ring_cases; lia. Qed.
  Lemma ring_bound c h i : h < c -> i < c -> ring c (h + i) < c.
  Proof. intros. ring_cases; lia. Qed.
  Lemma ring_onto c h j : h < c -> j < c -> exists i, i < c /\ ring c (h + i) = j.
  Proof.
    intros Hh Hj. destruct (Nat.le_gt_cases h j).
    - exists (j - h). split; [lia|]. ring_cases; lia.
    - exists (j + c - h). split; [lia|]. ring_cases; lia.
  Qed.
  Lemma ring_shift c h i : h < c -> S i < c -> ring c (ring c (h + 1) + i) = ring c (h + S i).
  Proof. intros. ring_cases; lia. Qed.

  Record qrep q l h : Prop := {
    qr_data : length (qdata q) = qcapacity q;
    qr_len : qlength q = length l;
    qr_fit : length l <= qcapacity q;
    qr_head : h < qcapacity q \/ (qcapacity q = 0 /\ h = 0);
    qr_last : qlast q = ring (qcapacity q) (h + length l);
    qr_slots : forall i, i < qcapacity q ->
      qdata q !! ring (qcapacity q) (h + i) = Some (slot_of (l !! i)) }.

  Lemma qrep_empty c : qrep (queue_with_capacity c) [] 0.
  Proof.
    split; cbn.
    - apply replicate_length.
    - done.
    - lia.
    - destruct c; lia.
    - ring_cases; lia.
    - intros i Hi. rewrite ring_lt by lia. rewrite lookup_nil. cbn. by apply m_alloc_lookup.
  Qed.

  Lemma start_idx_rep q l h : qrep q l h -> start_idx q = h.
  Proof.
    intros [D L F H La S]. unfold start_idx. rewrite La, L.
    destruct (Nat.leb_spec (length l) (ring (qcapacity q) (h + length l))); ring_cases; lia.
  Qed.
  Lemma idx_at_rep q l h i : qrep q l h -> i < length l -> idx_at q i = ring (qcapacity q) (h + i).
  Proof.
    intros [D L F H La S] Hi. unfold idx_at. rewrite La, L.
    destruct (Nat.leb_spec (length l) (ring (qcapacity q) (h + length l) + i)); ring_cases; lia.
  Qed.
  Lemma sub_idx_rep q l h i : qrep q l h -> i < length l -> sub_idx q i = ring (qcapacity q) (h + i).
  Proof.
    intros R Hi. unfold sub_idx. rewrite (start_idx_rep q l h R).
    destruct R as [D L F H La S].
    destruct (Nat.leb_spec (qcapacity q) (i + h)); ring_cases; lia.
  Qed.
  Lemma end_idx_rep q l h : qrep q l h -> 0 < length l ->
    end_idx q = ring (qcapacity q) (h + (length l - 1)).
  Proof.
    intros [D L F H La S] Hl. unfold end_idx. rewrite La.
    destruct (Nat.eqb_spec (qcapacity q) 0); [lia|].
    destruct (Nat.eqb_spec (ring (qcapacity q) (h + length l)) 0); ring_cases; lia.
  Qed.
  Lemma next_idx_rep q l h i : qrep q l h -> i < qcapacity q ->
    next_idx q (ring (qcapacity q) (h + i)) = ring (qcapacity q) (h + S i).
  Proof.
    intros [D L F H La S] Hi. unfold next_idx.
    destruct (Nat.eqb_spec (ring (qcapacity q) (h + i)) (qcapacity q - 1)); ring_cases; lia.
  Qed.

  Lemma qrep_read q l h i x : qrep q l h -> l !! i = Some x ->
    m_read (qdata q) (ring (qcapacity q) (h + i)) = Ok x.
  Proof.
    intros R Hx. apply m_read_ok. rewrite (qr_slots _ _ _ R).
    - by rewrite Hx.
    - apply lookup_lt_Some in Hx. pose proof (qr_fit _ _ _ R). lia.
  Qed.

  (** Writing one ring position. *)
  Lemma slots_insert m c h i j s : length m = c -> h < c -> i < c -> j < c ->
    <[ring c (h + i):=s]> m !! ring c (h + j) = if decide (i = j) then Some s else m !! ring c (h + j).
  Proof.
    intros Hm Hh Hi Hj. destruct (decide (i = j)) as [->|Hne].
    - apply list_lookup_insert. rewrite Hm. by apply ring_bound.
    - apply list_lookup_insert_ne. intros E. by apply ring_inj in E.
  Qed.

  Lemma move_range_spec xs : forall (src dst : mem T) soff doff,
    (forall i x, xs !! i = Some x -> src !! (soff + i) = Some (Live x)) ->
    (forall i, i < length xs -> dst !! (doff + i) = Some Raw) ->
    exists src' dst', move_range src soff dst doff (length xs) = Ok (src', dst') /\
      length src' = length src /\ length dst' = length dst /\
      (forall j, src' !! j = if decide (soff <= j < soff + length xs) then Some Husk else src !! j) /\
      (forall j, dst' !! j = if decide (doff <= j < doff + length xs) then Live <$> xs !! (j - doff) else dst !! j).
  Proof.
    induction xs as [|x xs IH]; intros src dst soff doff Hs Hd; cbn [length move_range].
    - exists src, dst. split; [done|]. split; [done|]. split; [done|].
      split; intros j; destruct (decide _); done || lia.
    - pose proof (Hs 0 x eq_refl) as Hs0. rewrite Nat.add_0_r in Hs0.
      pose proof (Hd 0 ltac:(cbn; lia)) as Hd0. rewrite Nat.add_0_r in Hd0.
      rewrite (m_take_ok _ _ x) by done. cbn [mbind res_bind].
      rewrite (m_construct_ok _ _ x) by done. cbn [mbind res_bind].
      destruct (IH (<[soff:=Husk]> src) (<[doff:=Live x]> dst) (S soff) (S doff)) as
        (src' & dst' & E & L1 & L2 & H1 & H2).
      + intros i y Hy. rewrite list_lookup_insert_ne by lia.
        replace (S soff + i) with (soff + S i) by lia. by apply Hs.
      + intros i Hi. rewrite list_lookup_insert_ne by lia.
        replace (S doff + i) with (doff + S i) by lia. apply Hd. cbn. lia.
      + exists src', dst'. rewrite insert_length in L1, L2. split; [done|]. split; [done|]. split; [done|].
        split; intros j.
        * rewrite H1. destruct (decide (S soff <= j < S soff + length xs)).
          { destruct (decide _); [done|]. cbn in *. lia. }
          destruct (decide (j = soff)) as [->|].
          { rewrite list_lookup_insert by (by eapply lookup_lt_Some).
            destruct (decide _); [done|cbn in *; lia]. }
          rewrite list_lookup_insert_ne by done. destruct (decide _); [cbn in *; lia|done].
        * rewrite H2. destruct (decide (S doff <= j < S doff + length xs)).
          { destruct (decide _); [|cbn in *; lia].
            replace (j - doff) with (S (j - S doff)) by lia. done. }
          destruct (decide (j = doff)) as [->|].
          { rewrite list_lookup_insert by (by eapply lookup_lt_Some).
            destruct (decide _); [|cbn in *; lia]. by rewrite Nat.sub_diag. }
          rewrite list_lookup_insert_ne by done. destruct (decide _); [cbn in *; lia|done].
  Qed.

  Lemma queue_reserve_spec q l h n : qrep q l h ->
    exists q' h', queue_reserve q n = Ok q' /\ qrep q' l h' /\ qcapacity q' = Nat.max (qcapacity q) n.
  Proof.
    intros R. pose proof R as [D L F H La S]. unfold queue_reserve.
    destruct (Nat.leb_spec n (qcapacity q)).
    { exists q, h. split; [done|]. split; [done|]. lia. }
    assert (exists old m,
      (if qlength q <=? qlast q then
         move_range (qdata q) (qlast q - qlength q) (m_alloc n) 0 (qlength q)
       else
         '(old1, m1) ← move_range (qdata q) (qlast q + qcapacity q - qlength q) (m_alloc n) 0
           (qlength q - qlast q);
         move_range old1 0 m1 (qlength q - qlast q) (qlast q)) = Ok (old, m) /\
      length m = n /\ (forall j x, old !! j <> Some (Live x)) /\
      (forall j, j < n -> m !! j = Some (slot_of (l !! j)))) as (old & m & E & Lm & Ho & Hm).
    { destruct (Nat.leb_spec (qlength q) (qlast q)) as [Hc|Hc].
      - assert (h + length l < qcapacity q \/ length l = 0) as Hor.
        { ring_cases; lia. }
        assert (qlast q - qlength q = h) as -> by (ring_cases; lia). rewrite L.
        destruct (move_range_spec l (qdata q) (m_alloc n) h 0) as (src & dst & E & L1 & L2 & H1 & H2).
        + intros i x Hx. apply lookup_lt_Some in Hx as Hi. rewrite <- (ring_lt (qcapacity q) (h + i)) by lia.
          rewrite S by lia. by rewrite Hx.
        + intros i Hi. apply m_alloc_lookup. lia.
        + exists src, dst. split; [done|]. rewrite m_alloc_length in L2. split; [done|]. split.
          * intros j x. rewrite H1. destruct (decide _); [done|]. intros Hj.
            apply lookup_lt_Some in Hj as Hb. rewrite D in Hb.
            destruct (ring_onto (qcapacity q) h j) as (i & Hi & Hij); [lia|done|].
            rewrite <- Hij, S in Hj by done.
            assert (l !! i = None) as Hn; [|rewrite Hn in Hj; done].
            apply lookup_ge_None_2. ring_cases; lia.
          * intros j Hj. rewrite H2. destruct (decide _) as [Hd|Hd].
            -- rewrite Nat.sub_0_r. destruct (lookup_lt_is_Some_2 l j) as [x Hx]; [lia|].
               rewrite Hx. done.
            -- rewrite m_alloc_lookup by done. by rewrite lookup_ge_None_2 by lia.
      - assert (h < qcapacity q) as Hh by (ring_cases; lia).
        assert (qcapacity q <= h + length l) as Hw by (ring_cases; lia).
        rewrite (ring_ge _ _ Hw) in La.
        assert (qlast q + qcapacity q - qlength q = h) as -> by lia.
        assert (qlength q - qlast q = qcapacity q - h) as -> by lia.
        set (f := qcapacity q - h).
        assert (length (take f l) = f) as Lt by (rewrite take_length; lia).
        destruct (move_range_spec (take f l) (qdata q) (m_alloc n) h 0) as (src & dst & E & L1 & L2 & H1 & H2).
        { intros i x Hx. assert (i < f) by (apply lookup_lt_Some in Hx; lia).
          rewrite lookup_take in Hx by done. rewrite <- (ring_lt (qcapacity q) (h + i)) by lia.
          rewrite S by lia. by rewrite Hx. }
        { intros i Hi. apply m_alloc_lookup. lia. }
        rewrite Lt in *. rewrite E. cbn [mbind res_bind].
        assert (length (drop f l) = qlast q) as Ld by (rewrite drop_length; lia).
        destruct (move_range_spec (drop f l) src dst 0 f) as (src2 & dst2 & E2 & L3 & L4 & H3 & H4).
        { intros i x Hx. assert (i < qlast q) by (apply lookup_lt_Some in Hx; lia).
          rewrite lookup_drop in Hx. rewrite H1. destruct (decide _); [lia|].
          assert (0 + i = ring (qcapacity q) (h + (f + i))) as -> by (rewrite ring_ge; lia).
          rewrite S by lia. by rewrite Hx. }
        { intros i Hi. rewrite H2. destruct (decide _); [lia|]. apply m_alloc_lookup. lia. }
        rewrite Ld in *. exists src2, dst2. split; [done|].
        rewrite m_alloc_length in L2. split; [lia|]. split.
        + intros j x. rewrite H3. destruct (decide _); [done|]. rewrite H1. destruct (decide _); [done|].
          intros Hj. apply lookup_lt_Some in Hj as Hb. rewrite D in Hb.
          destruct (ring_onto (qcapacity q) h j) as (i & Hi & Hij); [lia|done|].
          rewrite <- Hij, S in Hj by done.
          assert (l !! i = None) as Hn; [|rewrite Hn in Hj; done].
          apply lookup_ge_None_2. ring_cases; lia.
        + intros j Hj. rewrite H4. destruct (decide _) as [Hd|Hd].
          * rewrite lookup_drop. destruct (lookup_lt_is_Some_2 l j) as [x Hx]; [lia|].
            replace (f + (j - f)) with j by lia. rewrite Hx. done.
          * rewrite H2. destruct (decide _) as [Hd2|Hd2].
            -- rewrite Nat.sub_0_r, lookup_take by lia.
               destruct (lookup_lt_is_Some_2 l j) as [x Hx]; [lia|]. rewrite Hx. done.
            -- rewrite m_alloc_lookup by done. by rewrite lookup_ge_None_2 by lia. }
    cbv zeta. rewrite E. cbn [mbind res_bind]. rewrite (m_free_ok old) by done. cbn [mbind res_bind].
    eexists _, 0. split; [reflexivity|]. split; [|cbn; lia]. split; cbn [qdata qlength qlast qcapacity].
    - done.
    - done.
    - lia.
    - lia.
    - rewrite ring_lt; lia.
    - intros i Hi. rewrite ring_lt by lia. by apply Hm.
  Qed.

  Lemma queue_grow_spec q l h : qrep q l h ->
    exists q' h', queue_grow q = Ok q' /\ qrep q' l h' /\ qcapacity q < qcapacity q'.
  Proof.
    intros R. unfold queue_grow.
    destruct (queue_reserve_spec q l h (match qcapacity q with 0 => 8 | c => 2 * c end) R) as (q' & h' & E & R' & C).
    exists q', h'. split; [done|]. split; [done|]. rewrite C. destruct (qcapacity q); lia.
  Qed.

  Lemma queue_push_spec q l h x : qrep q l h ->
    exists q' h', queue_push q x = Ok q' /\ qrep q' (l ++ [x]) h'.
  Proof.
    intros R. unfold queue_push.
    assert (exists q1 h1, (if queue_full q then queue_grow q else Ok q) = Ok q1 /\ qrep q1 l h1 /\
      length l < qcapacity q1) as (q1 & h1 & -> & R1 & Hlt).
    { unfold queue_full. destruct R as [D L F H La S] eqn:ER. destruct (Nat.eqb_spec (qlength q) (qcapacity q)).
      - destruct (queue_grow_spec q l h R) as (q' & h' & E & R' & C). exists q', h'.
        split; [done|]. split; [done|]. lia.
      - exists q, h. split; [done|]. split; [done|]. lia. }
    cbn [mbind res_bind]. clear q h R. pose proof R1 as [D L F H La S].
    assert (h1 < qcapacity q1) as Hh by lia.
    rewrite (m_construct_ok _ _ x).
    2:{ rewrite La, S by done. by rewrite lookup_ge_None_2. }
    cbn [mbind res_bind]. eexists _, h1. split; [reflexivity|].
    split; cbn [qdata qlength qlast qcapacity].
    - by rewrite insert_length.
    - rewrite app_length, L. cbn. lia.
    - rewrite app_length. cbn. lia.
    - auto.
    - rewrite La. rewrite (next_idx_rep q1 l h1) by done. rewrite app_length. cbn. f_equal. lia.
    - intros i Hi. rewrite La, slots_insert by done. destruct (decide (length l = i)) as [<-|Hne].
      + by rewrite list_lookup_middle.
      + rewrite S by done. f_equal. f_equal. symmetry. destruct (Nat.lt_ge_cases i (length l)).
        * by rewrite lookup_app_l.
        * rewrite !lookup_ge_None_2; [done|lia|rewrite app_length; cbn; lia].
  Qed.

  Lemma queue_pop_spec q x l h : qrep q (x :: l) h ->
    exists q' h', queue_pop q = Ok (q', [x]) /\ qrep q' l h'.
  Proof.
    intros R. pose proof (start_idx_rep _ _ _ R) as Es. pose proof R as [D L F H La S].
    unfold queue_pop. rewrite L, assert_lt by (cbn; lia). cbn [mbind res_bind].
    unfold start_idx in Es. rewrite L in Es. rewrite Es. cbn in F.
    assert (h < qcapacity q) as Hh by lia.
    assert (qdata q !! h = Some (Live x)) as Hx.
    { pose proof (S 0 ltac:(lia)) as S0. rewrite Nat.add_0_r, ring_lt in S0 by lia. done. }
    rewrite (m_destroy_live _ _ x) by done. cbn [mbind res_bind].
    eexists _, (ring (qcapacity q) (h + 1)). split; [reflexivity|].
    split; cbn [qdata qlength qlast qcapacity length].
    - by rewrite insert_length.
    - lia.
    - lia.
    - left. ring_cases; lia.
    - rewrite La. cbn [length]. ring_cases; lia.
    - intros i Hi.
      assert (<[h:=Raw]> (qdata q) = <[ring (qcapacity q) (h + 0):=Raw]> (qdata q)) as ->
        by (f_equal; rewrite Nat.add_0_r, ring_lt by done; done).
      destruct (Nat.lt_ge_cases (Datatypes.S i) (qcapacity q)).
      + rewrite ring_shift by done. rewrite slots_insert by lia.
        destruct (decide (0 = Datatypes.S i)); [lia|]. rewrite S by done. done.
      + assert (ring (qcapacity q) (ring (qcapacity q) (h + 1) + i) = ring (qcapacity q) (h + 0)) as ->
          by (ring_cases; lia).
        rewrite slots_insert by lia. destruct (decide (0 = 0)); [|lia].
        by rewrite lookup_ge_None_2 by lia.
  Qed.

  Lemma destroy_at_spec q h c (l : list T) : forall m i,
    length m = c -> h < c -> i + length l <= c ->
    (forall k, k < length l -> idx_at q (i + k) = ring c (h + (i + k))) ->
    (forall k x, l !! k = Some x -> m !! ring c (h + (i + k)) = Some (Live x)) ->
    exists m', destroy_at q m i (length l) = Ok (m', l) /\ length m' = c /\
      (forall k, k < c -> m' !! ring c (h + k) =
         if decide (i <= k < i + length l) then Some Raw else m !! ring c (h + k)).
  Proof.
    induction l as [|x l IH]; intros m i Hm Hh Hi Hidx Hl; cbn [length destroy_at].
    - exists m. split; [done|]. split; [done|]. intros k Hk. destruct (decide _); [lia|done].
    - cbn in Hi. pose proof (Hidx 0 ltac:(cbn; lia)) as Hi0. rewrite Nat.add_0_r in Hi0. rewrite Hi0.
      pose proof (Hl 0 x eq_refl) as Hx. rewrite Nat.add_0_r in Hx.
      rewrite (m_destroy_live _ _ x) by done. cbn [mbind res_bind].
      destruct (IH (<[ring c (h + i):=Raw]> m) (S i)) as (m' & E & Lm & Hk).
      + by rewrite insert_length.
      + done.
      + lia.
      + intros k Hk. replace (S i + k) with (i + S k) by lia. apply Hidx. cbn. lia.
      + intros k y Hy. apply lookup_lt_Some in Hy as Hk. rewrite slots_insert by lia.
        destruct (decide _); [lia|]. replace (S i + k) with (i + S k) by lia. by apply Hl.
      + rewrite E. cbn [mbind res_bind]. exists m'. split; [done|]. split; [done|].
        intros k Hkc. rewrite Hk by done. destruct (decide (S i <= k < S i + length l)).
        * destruct (decide _); [done|lia].
        * rewrite slots_insert by lia. destruct (decide (i = k)) as [->|].
          -- destruct (decide _); [done|lia].
          -- destruct (decide _); [lia|done].
  Qed.

  Lemma queue_clear_spec q l h : qrep q l h ->
    exists q', queue_clear q = Ok (q', l) /\ qrep q' [] 0 /\ (forall j x, qdata q' !! j <> Some (Live x)).
  Proof.
    intros R. pose proof R as [D L F H La S]. unfold queue_clear. rewrite L.
    destruct (decide (qcapacity q = 0)) as [C0|C0].
    { assert (l = []) as -> by (destruct l; [done|cbn in *; lia]). cbn.
      eexists. split; [reflexivity|]. split.
      - split; cbn; try done; try lia. ring_cases; lia.
      - cbn. intros j x Hj. apply lookup_lt_Some in Hj. lia. }
    destruct (destroy_at_spec q h (qcapacity q) l (qdata q) 0) as (m' & E & Lm & Hm).
    - done.
    - lia.
    - lia.
    - intros k Hk. by apply idx_at_rep with l.
    - intros k x Hx. cbn. apply lookup_lt_Some in Hx as Hk. rewrite S by lia. by rewrite Hx.
    - rewrite E. cbn [mbind res_bind].
      assert (forall j, j < qcapacity q -> m' !! j = Some Raw) as Hraw.
      { intros j Hj. destruct (ring_onto (qcapacity q) h j) as (i & Hi & <-); [lia|done|].
        rewrite Hm by done. destruct (decide _); [done|]. rewrite S by done.
        by rewrite lookup_ge_None_2 by lia. }
      eexists. split; [reflexivity|]. split.
      + split; cbn; try done; try lia.
        * ring_cases; lia.
        * intros i Hi. rewrite ring_lt by lia. rewrite lookup_nil. by apply Hraw.
      + cbn. intros j x Hj. apply lookup_lt_Some in Hj as Hb. rewrite Hraw in Hj by lia. discriminate.
  Qed.

  Lemma queue_destroy_spec q l h : qrep q l h -> queue_destroy q = Ok (queue_empty, l).
  Proof.
    intros R. unfold queue_destroy.
    destruct (queue_clear_spec q l h R) as (q' & -> & R' & Hj). cbn [mbind res_bind].
    rewrite m_free_ok by done. done.
  Qed.

  Lemma read_at_spec q l h : qrep q l h -> forall n i, i + n = length l -> read_at q i n = Ok (drop i l).
  Proof.
    intros R. induction n as [|n IH]; intros i Hi; cbn [read_at].
    - by rewrite drop_ge by lia.
    - rewrite (idx_at_rep q l h i R) by lia.
      destruct (lookup_lt_is_Some_2 l i) as [x Hx]; [lia|].
      rewrite (qrep_read q l h i x R Hx). cbn [mbind res_bind].
      rewrite IH by lia. cbn [mbind res_bind]. by rewrite (drop_S l x i).
  Qed.

  Lemma queue_step_spec q l h o : qrep q l h ->
    match fifo_step l o with
    | Some (l', out, ds) => exists q' h', queue_step q o = Ok (q', out, ds) /\ qrep q' l' h'
    | None => queue_step q o = Die
    end.
  Proof.
    intros R. pose proof (qr_len _ _ _ R) as L. destruct o; cbn [fifo_step queue_step].
    - destruct (queue_push_spec q l h x R) as (q' & h' & -> & R'). cbn. eauto.
    - destruct l as [|x l].
      + unfold queue_pop. rewrite L. done.
      + destruct (queue_pop_spec q x l h R) as (q' & h' & -> & R'). cbn. eauto.
    - destruct (queue_clear_spec q l h R) as (q' & -> & R' & _). cbn. eauto.
    - destruct (queue_reserve_spec q l h n R) as (q' & h' & -> & R' & _). cbn. eauto.
    - destruct (queue_grow_spec q l h R) as (q' & h' & -> & R' & _). cbn. eauto.
    - unfold queue_set. rewrite L. destruct (l !! i) as [y|] eqn:Hi; cbn [mbind option_bind].
      + pose proof (lookup_lt_Some _ _ _ Hi) as Hlt. rewrite assert_lt by done. cbn [mbind res_bind].
        rewrite (sub_idx_rep q l h i R Hlt). destruct R as [D L' F H La S].
        rewrite (m_assign_live _ _ _ y).
        2:{ rewrite S by lia. by rewrite Hi. }
        cbn [mbind res_bind]. eexists _, h. split; [reflexivity|].
        split; cbn [qdata qlength qlast qcapacity]; rewrite ?insert_length; try done.
        intros k Hk. rewrite slots_insert by lia. destruct (decide (i = k)) as [->|].
        * rewrite list_lookup_insert by done. done.
        * rewrite list_lookup_insert_ne by done. by apply S.
      + rewrite assert_ge by (by apply lookup_ge_None_1). done.
    - unfold queue_get. rewrite L. destruct (l !! i) as [y|] eqn:Hi; cbn [mbind option_bind].
      + pose proof (lookup_lt_Some _ _ _ Hi) as Hlt. rewrite assert_lt by done. cbn [mbind res_bind].
        rewrite (sub_idx_rep q l h i R Hlt), (qrep_read q l h i y R Hi). cbn. eauto.
      + rewrite assert_ge by (by apply lookup_ge_None_1). done.
    - unfold queue_front, queue_is_empty. rewrite L. destruct l as [|x l]; [done|].
      cbn [length Nat.eqb negb assert_ mbind res_bind head option_bind].
      rewrite (start_idx_rep _ _ _ R). pose proof (qrep_read q (x :: l) h 0 x R eq_refl) as E.
      rewrite Nat.add_0_r, ring_lt in E; [rewrite E; cbn; eauto|].
      pose proof (qr_fit _ _ _ R). pose proof (qr_head _ _ _ R). cbn in *. lia.
    - unfold queue_back, queue_is_empty. rewrite L. destruct (last l) as [x|] eqn:Hl; cbn [mbind option_bind].
      + rewrite last_lookup in Hl. pose proof (lookup_lt_Some _ _ _ Hl) as Hlt.
        destruct (Nat.eqb_spec (length l) 0); [lia|]. cbn [negb assert_ mbind res_bind].
        rewrite (end_idx_rep q l h R) by lia.
        rewrite (qrep_read q l h (length l - 1) x R).
        2:{ rewrite <- Hl. f_equal. lia. }
        cbn. eauto.
      + apply last_None in Hl. subst l. done.
    - unfold queue_penultimate. rewrite L. destruct (Nat.ltb_spec 1 (length l)) as [Hl|Hl].
      + cbn [assert_ mbind res_bind]. destruct (lookup_lt_is_Some_2 l (length l - 2)) as [x Hx]; [lia|].
        rewrite Hx. cbn [mbind option_bind].
        assert ((if qlast q =? 0 then qcapacity q - 2 else if qlast q =? 1 then qcapacity q - 1 else qlast q - 2)
          = ring (qcapacity q) (h + (length l - 2))) as ->.
        { destruct R as [D L' F H La S]. rewrite La.
          destruct (Nat.eqb_spec (ring (qcapacity q) (h + length l)) 0);
          [|destruct (Nat.eqb_spec (ring (qcapacity q) (h + length l)) 1)]; ring_cases; lia. }
        rewrite (qrep_read q l h _ x R Hx). cbn. eauto.
      + done.
    - rewrite L. eauto.
    - unfold queue_is_empty. rewrite L. eexists _, _. split; [|done]. destruct l; done.
    - unfold queue_iterate. rewrite L, (read_at_spec q l h R) by lia. cbn. eauto.
  Qed.

  Lemma queue_run_spec os : forall q l h, qrep q l h ->
    match fifo_run l os with
    | Some (l', outs, ds) => exists q' h', queue_run q os = Ok (q', outs, ds) /\ qrep q' l' h'
    | None => queue_run q os = Die
    end.
  Proof.
    induction os as [|o os IH]; intros q l h R; cbn [fifo_run queue_run].
    { eauto. }
    pose proof (queue_step_spec q l h o R) as Hs.
    destruct (fifo_step l o) as [[[l1 out] ds]|]; cbn [mbind option_bind].
    - destruct Hs as (q1 & h1 & -> & R1). cbn [mbind res_bind].
      specialize (IH q1 l1 h1 R1). destruct (fifo_run l1 os) as [[[l2 outs] ds']|].
      + destruct IH as (q2 & h2 & -> & R2). cbn. eauto.
      + rewrite IH. done.
    - rewrite Hs. done.
  Qed.

  Lemma queue_push_all_spec xs : forall q l h, qrep q l h ->
    exists q' h', queue_push_all q xs = Ok q' /\ qrep q' (l ++ xs) h'.
  Proof.
    induction xs as [|x xs IH]; intros q l h R; cbn [queue_push_all].
    - rewrite app_nil_r. eauto.
    - destruct (queue_push_spec q l h x R) as (q1 & h1 & -> & R1). cbn [mbind res_bind].
      destruct (IH q1 (l ++ [x]) h1 R1) as (q' & h' & -> & R'). rewrite <- app_assoc in R'. eauto.
  Qed.

  Lemma queue_of_spec xs : exists q h, queue_of xs = Ok q /\ qrep q xs h.
  Proof.
    unfold queue_of. destruct (queue_reserve_spec queue_empty [] 0 (length xs) (qrep_empty 0))
      as (q & h & -> & R & _). cbn [mbind res_bind].
    destruct (queue_push_all_spec xs q [] h R) as (q' & h' & E & R'). eauto.
  Qed.

  (** Accounting of values. *)
  Lemma fifo_run_account os : forall l l' outs ds,
    fifo_run l os = Some (l', outs, ds) -> l ++ fifo_created os ≡ₚ l' ++ ds.
  Proof.
    induction os as [|o os IH]; intros l l' outs ds E; cbn [fifo_run fifo_created] in *.
    { injection E as <- <- <-. by rewrite !app_nil_r. }
    destruct (fifo_step l o) as [[[l1 out] ds1]|] eqn:Es; cbn [mbind option_bind] in E; [|discriminate].
    destruct (fifo_run l1 os) as [[[l2 outs2] ds2]|] eqn:Er; cbn in E; [|discriminate].
    injection E as <- <- <-. specialize (IH _ _ _ _ Er).
    rewrite app_assoc, (Permutation_app_comm l2), <- app_assoc, <- IH.
    destruct o; cbn in Es;
      repeat match type of Es with
        | context [l !! ?i] => destruct (l !! i) as [y|] eqn:Hi; cbn in *; [|discriminate]
        | context [last l] => destruct (last l) as [y|] eqn:Hl; cbn in *; [|discriminate]
        | context [head l] => destruct (head l) as [y|] eqn:Hh; cbn in *; [|discriminate]
        | context [if ?b then _ else _] => destruct b; cbn in *; [|discriminate]
        | context [match l with _ => _ end] => destruct l; [discriminate|]
        end; try (injection Es as <- <- <-); cbn; try done.
    - by rewrite <- app_assoc.
    - rewrite <- Permutation_middle. cbn.
      rewrite <- (take_drop_middle _ _ _ Hi) at 1.
      rewrite insert_take_drop by (by eapply lookup_lt_Some).
      rewrite <- !app_assoc. cbn. rewrite <- !Permutation_middle. constructor.
  Qed.

  (** ** clone of a type with a non-trivial copy *)
  Lemma clone_loop_spec q l h : qrep q l h -> 0 < length l -> forall n m i fuel,
    i + n = length l - 1 -> n <= fuel -> length m = qcapacity q ->
    (forall k, i <= k < qcapacity q -> m !! ring (qcapacity q) (h + k) = Some Raw) ->
    exists m', clone_loop q m fuel (ring (qcapacity q) (h + i)) (ring (qcapacity q) (h + (length l - 1))) = Ok m' /\
      (forall k, k < qcapacity q -> m' !! ring (qcapacity q) (h + k) =
         if decide (i <= k < length l - 1) then Some (slot_of (l !! k)) else m !! ring (qcapacity q) (h + k)).
  Proof.
    intros R Hl. pose proof R as [D L F H La S].
    induction n as [|n IH]; intros m i fuel Hi Hf Hm Hr.
    - replace (length l - 1) with i by lia. exists m. split.
      + destruct fuel; cbn; by rewrite Nat.eqb_refl.
      + intros k Hk. destruct (decide _); [lia|done].
    - destruct fuel as [|fuel]; [lia|]. cbn [clone_loop].
      destruct (Nat.eqb_spec (ring (qcapacity q) (h + i)) (ring (qcapacity q) (h + (length l - 1)))) as [E|_].
      { apply ring_inj in E; lia. }
      destruct (lookup_lt_is_Some_2 l i) as [x Hx]; [lia|].
      rewrite (qrep_read q l h i x R Hx). cbn [mbind res_bind].
      rewrite m_construct_ok by (apply Hr; lia). cbn [mbind res_bind].
      rewrite (next_idx_rep q l h i R) by lia.
      destruct (IH (<[ring (qcapacity q) (h + i):=Live x]> m) (Datatypes.S i) fuel) as (m' & E & Hm').
      + lia.
      + lia.
      + by rewrite insert_length.
      + intros k Hk. rewrite slots_insert by lia. destruct (decide _); [lia|]. apply Hr. lia.
      + exists m'. split; [done|]. intros k Hk. rewrite Hm' by done.
        destruct (decide (Datatypes.S i <= k < length l - 1)).
        * destruct (decide _); [done|lia].
        * rewrite slots_insert by lia. destruct (decide (i = k)) as [->|].
          -- destruct (decide _); [|lia]. by rewrite Hx.
          -- destruct (decide _); [lia|done].
  Qed.

  Lemma queue_clone_nonempty q l h : qrep q l h -> 0 < length l ->
    exists c, queue_clone q = Ok c /\ queue_back c = UB /\
      qlength c = length l /\
      (forall i, i < length l - 1 -> queue_get c i = queue_get q i).
  Proof.
    intros R Hl. pose proof R as [D L F H La S]. unfold queue_clone.
    rewrite (start_idx_rep q l h R), (end_idx_rep q l h R) by done.
    destruct (clone_loop_spec q l h R Hl (length l - 1) (m_alloc (qcapacity q)) 0 (qcapacity q)) as (m & E & Hm).
    - lia.
    - lia.
    - apply m_alloc_length.
    - intros k Hk. apply m_alloc_lookup, ring_bound; lia.
    - rewrite Nat.add_0_r, ring_lt in E by lia. rewrite E. cbn [mbind res_bind].
      eexists. split; [reflexivity|]. split; [|split].
      + unfold queue_back, queue_is_empty. cbn [qlength]. rewrite L.
        destruct (Nat.eqb_spec (length l) 0); [lia|]. cbn [negb assert_ mbind res_bind qdata].
        change (end_idx (mk_queue m (length l) (qlast q) (qcapacity q))) with (end_idx q).
        rewrite (end_idx_rep q l h R) by done. unfold m_read. rewrite Hm by lia.
        destruct (decide _); [lia|]. rewrite m_alloc_lookup by (apply ring_bound; lia). done.
      + done.
      + intros i Hi. unfold queue_get. cbn [qlength qdata].
        change (sub_idx (mk_queue m (qlength q) (qlast q) (qcapacity q)) i) with (sub_idx q i).
        rewrite L, assert_lt by lia. cbn [mbind res_bind].
        rewrite (sub_idx_rep q l h i R) by lia. unfold m_read.
        rewrite Hm by lia. destruct (decide _); [|lia]. rewrite S by lia. done.
  Qed.

  (** ** erase_first *)
  Lemma erase_loop_absent eqb triv q l h v : qrep q l h ->
    forall n m i, i + n = length l -> m = qdata q ->
    (forall k x, i <= k -> l !! k = Some x -> eqb x v = false) ->
    erase_loop eqb triv q v m false (ring (qcapacity q) (h + i)) n = Ok (m, false, []).
  Proof.
    intros R. induction n as [|n IH]; intros m i Hi -> Hno; cbn [erase_loop]; [done|].
    destruct (lookup_lt_is_Some_2 l i) as [x Hx]; [lia|].
    rewrite (qrep_read q l h i x R Hx). cbn [mbind res_bind].
    rewrite (Hno i x) by (done || lia).
    pose proof (qr_fit _ _ _ R). rewrite (next_idx_rep q l h i R) by lia.
    apply IH; [lia|done|]. intros k y Hk. apply Hno. lia.
  Qed.

  Lemma erase_loop_last eqb triv q l x h v : qrep q (l ++ [x]) h -> eqb x v = true ->
    forall n m i, i + n = S (length l) -> 0 < n -> m = qdata q ->
    (forall k y, l !! k = Some y -> eqb y v = false) ->
    erase_loop eqb triv q v m false (ring (qcapacity q) (h + i)) n =
      Ok (if triv then m else <[ring (qcapacity q) (h + length l):=Raw]> m, true, [x]).
  Proof.
    intros R Hx. pose proof R as [D L F H La Sl]. rewrite app_length in *. cbn in F, L.
    induction n as [|n IH]; intros m i Hi Hn -> Hno; [lia|]. cbn [erase_loop].
    destruct (lookup_lt_is_Some_2 (l ++ [x]) i) as [y Hy]; [rewrite app_length; cbn; lia|].
    rewrite (qrep_read q (l ++ [x]) h i y R Hy). cbn [mbind res_bind].
    destruct n as [|n].
    - assert (i = length l) as -> by lia. rewrite list_lookup_middle in Hy by done. injection Hy as <-.
      rewrite Hx. cbn [erase_loop mbind res_bind]. destruct triv; [done|].
      rewrite (m_destroy_live _ _ x); [done|]. rewrite Sl by lia. by rewrite list_lookup_middle.
    - rewrite lookup_app_l in Hy by lia. rewrite (Hno _ _ Hy).
      rewrite (next_idx_rep q (l ++ [x]) h i R) by lia. apply IH; [lia|lia|done|done].
  Qed.
End queue.
