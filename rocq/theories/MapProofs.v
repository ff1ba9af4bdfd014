(** Proofs about MapModel: the Robin Hood invariant. *)
From Verif Require Import Base Word MapModel MapSpec QueueProofs.

Section map.
  Context {K V : Type} `{EqDecision K}.
  Context (hash : K -> Z).
  Context (hash_ok : forall k, (0 < hash k < 2 ^ 64)%Z).
  Notation entry := (entry K V).
  Notation slots := (list (option entry)).
  Implicit Types (s : slots) (e x : entry) (m : map K V).

  (** ** Arithmetic of the circle *)
  Section circle.
    Context (c : nat).

    Lemma next_slot_lt i : i < c -> next_slot c i < c.
    Proof. unfold next_slot. intros. destruct (Nat.eqb_spec (S i) c); lia. Qed.
    Lemma next_slot_inj i j : i < c -> j < c -> next_slot c i = next_slot c j -> i = j.
    Proof. unfold next_slot. intros. destruct (Nat.eqb_spec (S i) c), (Nat.eqb_spec (S j) c); lia. Qed.
    Lemma next_slot_ne i : 4 <= c -> i < c -> next_slot c i <> i.
    Proof. unfold next_slot. intros. destruct (Nat.eqb_spec (S i) c); lia. Qed.
    Lemma next_next_ne i : 4 <= c -> i < c -> next_slot c (next_slot c i) <> i.
    Proof. unfold next_slot. intros. destruct (Nat.eqb_spec (S i) c); [destruct (Nat.eqb_spec 1 c)|destruct (Nat.eqb_spec (S (S i)) c)]; lia. Qed.
    Lemma next_slot_onto i : i < c -> exists p, p < c /\ next_slot c p = i.
    Proof.
      unfold next_slot. intros. destruct i as [|i].
      - exists (c - 1). split; [lia|]. destruct (Nat.eqb_spec (S (c - 1)) c); lia.
      - exists i. split; [lia|]. destruct (Nat.eqb_spec (S i) c); lia.
    Qed.
    Lemma next_slot_ring k j : k < c -> j < c -> next_slot c (ring c (k + j)) = ring c (k + S j).
    Proof.
      intros. unfold next_slot, ring.
      destruct (Nat.ltb_spec (k + j) c), (Nat.ltb_spec (k + S j) c).
      - destruct (Nat.eqb_spec (S (k + j)) c); lia.
      - destruct (Nat.eqb_spec (S (k + j)) c); lia.
      - lia.
      - destruct (Nat.eqb_spec (S (k + j - c)) c); lia.
    Qed.
    Lemma ring_next i j : i < c -> S j < c -> ring c (next_slot c i + j) = ring c (i + S j).
    Proof.
      intros. unfold next_slot, ring. destruct (Nat.eqb_spec (S i) c).
      - destruct (Nat.ltb_spec (0 + j) c), (Nat.ltb_spec (i + S j) c); lia.
      - destruct (Nat.ltb_spec (S i + j) c), (Nat.ltb_spec (i + S j) c); lia.
    Qed.

    Lemma probe_dist_lt i k : i < c -> k < c -> probe_dist c i k < c.
    Proof. unfold probe_dist. intros. destruct (Nat.leb_spec k i); lia. Qed.
    Lemma probe_dist_ring i k : i < c -> k < c -> ring c (k + probe_dist c i k) = i.
    Proof.
      unfold probe_dist, ring. intros. destruct (Nat.leb_spec k i).
      - destruct (Nat.ltb_spec (k + (i - k)) c); lia.
      - destruct (Nat.ltb_spec (k + (c + i - k)) c); lia.
    Qed.
    Lemma ring_probe_dist k j : k < c -> j < c -> probe_dist c (ring c (k + j)) k = j.
    Proof.
      unfold probe_dist, ring. intros. destruct (Nat.ltb_spec (k + j) c).
      - destruct (Nat.leb_spec k (k + j)); lia.
      - destruct (Nat.leb_spec k (k + j - c)); lia.
    Qed.
    Lemma probe_dist_next i k : i < c -> k < c -> S (probe_dist c i k) < c ->
      probe_dist c (next_slot c i) k = S (probe_dist c i k).
    Proof.
      unfold probe_dist, next_slot. intros Hi Hk. destruct (Nat.leb_spec k i); intros; destruct (Nat.eqb_spec (S i) c).
      - destruct (Nat.leb_spec k 0); lia.
      - destruct (Nat.leb_spec k (S i)); lia.
      - destruct (Nat.leb_spec k 0); lia.
      - destruct (Nat.leb_spec k (S i)); lia.
    Qed.
    Lemma probe_dist_prev i k : i < c -> k < c -> next_slot c i <> k ->
      S (probe_dist c i k) = probe_dist c (next_slot c i) k.
    Proof.
      unfold probe_dist, next_slot. intros Hi Hk. destruct (Nat.leb_spec k i); destruct (Nat.eqb_spec (S i) c); intros.
      - destruct (Nat.leb_spec k 0); lia.
      - destruct (Nat.leb_spec k (S i)); lia.
      - destruct (Nat.leb_spec k 0); lia.
      - destruct (Nat.leb_spec k (S i)); lia.
    Qed.
  End circle.

  (** ** Home positions *)
  Definition hm (c : nat) (h : Z) : nat := Z.to_nat (Z.shiftr h (shift_of c)).

  Lemma home_ok c h : 2 <= c -> home (shift_of c) h = Ok (hm c h).
  Proof.
    intros Hc. unfold home, hm, shift_of. destruct (Nat.eqb_spec c 0); [lia|].
    assert (1 <= Nat.log2 c) by (apply (Nat.log2_le_mono 2 c Hc)).
    destruct (Z.leb_spec 64 (64 - Z.of_nat (Nat.log2 c))); [lia|done].
  Qed.

  Lemma hm_lt c h : 2 <= c -> (0 <= h < 2 ^ 64)%Z -> hm c h < c.
  Proof.
    intros Hc Hh. unfold hm, shift_of. destruct (Nat.eqb_spec c 0); [lia|].
    pose proof (Nat.log2_spec c ltac:(lia)) as [Hlo _].
    set (g := Nat.log2 c) in *.
    assert (Z.of_nat (2 ^ g) = 2 ^ Z.of_nat g)%Z as Ep by (rewrite Nat2Z.inj_pow; done).
    assert (0 <= Z.shiftr h (64 - Z.of_nat g) < 2 ^ Z.of_nat g)%Z as [H1 H2]; [|apply Nat2Z.inj_lt; rewrite Z2Nat.id by done; lia].
    destruct (Z.le_ge_cases (Z.of_nat g) 64).
    - rewrite Z.shiftr_div_pow2 by lia. split; [apply Z.div_pos; [lia|apply Z.pow_pos_nonneg; lia]|].
      apply Z.div_lt_upper_bound; [apply Z.pow_pos_nonneg; lia|].
      rewrite <- Z.pow_add_r by lia. replace (64 - Z.of_nat g + Z.of_nat g)%Z with 64%Z by lia. lia.
    - rewrite <- (Z.opp_involutive (64 - Z.of_nat g)), Z.shiftr_opp_r.
      rewrite Z.shiftl_mul_pow2 by lia.
      assert (0 < 2 ^ (- (64 - Z.of_nat g)))%Z by (apply Z.pow_pos_nonneg; lia).
      split; [nia|]. replace (Z.of_nat g)%Z with (64 + (- (64 - Z.of_nat g)))%Z at 2 by lia.
      rewrite Z.pow_add_r by lia. apply Z.mul_lt_mono_pos_r; lia.
  Qed.

  Definition wf_entry e : Prop := ehash e = hash (ekey e).
  Definition dd c i e : nat := probe_dist c i (hm c (ehash e)).
  Definition dib c s i : nat := match s !! i with Some (Some e) => S (dd c i e) | _ => 0 end.
  Definition wf s : Prop := forall i e, s !! i = Some (Some e) -> wf_entry e.
  Definition rh c s : Prop := forall i, i < c -> dib c s (next_slot c i) <= S (dib c s i).
  Definition uniq s : Prop := forall p q e e',
    s !! p = Some (Some e) -> s !! q = Some (Some e') -> ekey e = ekey e' -> p = q.

  Lemma wf_hm c e : 2 <= c -> wf_entry e -> hm c (ehash e) < c.
  Proof. intros Hc ->. apply hm_lt; [done|]. pose proof (hash_ok (ekey e)). lia. Qed.

  Lemma dd_lt c i e : 4 <= c -> i < c -> wf_entry e -> dd c i e < c.
  Proof. intros. apply probe_dist_lt; [done|]. apply wf_hm; [lia|done]. Qed.

  Lemma dib_some c s i e : s !! i = Some (Some e) -> dib c s i = S (dd c i e).
  Proof. unfold dib. by intros ->. Qed.
  Lemma dib_none c s i : s !! i = Some None -> dib c s i = 0.
  Proof. unfold dib. by intros ->. Qed.
  Lemma dib_insert_ne c s i j o : i <> j -> dib c (<[i:=o]> s) j = dib c s j.
  Proof. intros. unfold dib. by rewrite list_lookup_insert_ne. Qed.
  Lemma dib_insert c s i o : i < length s -> dib c (<[i:=o]> s) i = match o with Some e => S (dd c i e) | None => 0 end.
  Proof. intros. unfold dib. rewrite list_lookup_insert by done. by destruct o. Qed.

  (** Every slot between an entry and its home is occupied by an entry at
      least as far from home as the probe would be. *)
  Lemma reach c s p e : 4 <= c -> length s = c -> rh c s -> wf s -> s !! p = Some (Some e) ->
    forall n j, n + j = dd c p e -> S j <= dib c s (ring c (hm c (ehash e) + j)).
  Proof.
    intros Hc Hs R W Hp. assert (p < c) as Hpc by (apply lookup_lt_Some in Hp; lia).
    pose proof (W _ _ Hp) as We. pose proof (wf_hm c e ltac:(lia) We) as Hh.
    pose proof (dd_lt c p e Hc Hpc We) as Hd.
    induction n as [|n IH]; intros j Hj.
    - cbn in Hj. subst j. unfold dd. rewrite probe_dist_ring by done. by rewrite (dib_some _ _ _ e Hp).
    - specialize (IH (S j) ltac:(lia)).
      pose proof (R (ring c (hm c (ehash e) + j)) ltac:(apply ring_bound; lia)) as HR.
      rewrite next_slot_ring in HR by lia. lia.
  Qed.

  Lemma dd_far c s i e z : 4 <= c -> length s = c -> rh c s -> wf s -> s !! i = Some (Some e) ->
    s !! z = Some None -> S (dd c i e) < c.
  Proof.
    intros Hc Hs R W Hi Hz. assert (i < c) as Hic by (apply lookup_lt_Some in Hi; lia).
    assert (z < c) as Hzc by (apply lookup_lt_Some in Hz; lia).
    pose proof (W _ _ Hi) as We. pose proof (dd_lt c i e Hc Hic We) as Hd. pose proof (wf_hm c e ltac:(lia) We) as Hh.
    destruct (decide (S (dd c i e) = c)) as [E|]; [|lia].
    pose proof (probe_dist_lt c z (hm c (ehash e)) Hzc Hh) as Hz'.
    pose proof (reach c s i e Hc Hs R W Hi (dd c i e - probe_dist c z (hm c (ehash e))) (probe_dist c z (hm c (ehash e))) ltac:(lia)) as HR.
    rewrite probe_dist_ring in HR by done. rewrite (dib_none _ _ _ Hz) in HR. lia.
  Qed.

  Lemma reach' c s p e j : 4 <= c -> length s = c -> rh c s -> wf s -> s !! p = Some (Some e) ->
    j <= dd c p e -> S j <= dib c s (ring c (hm c (ehash e) + j)).
  Proof. intros. eapply (reach c s p e) with (n := dd c p e - j); try done. lia. Qed.

  (** ** Lookup *)
  Lemma slot_at_ok s i o : s !! i = Some o -> slot_at s i = Ok o.
  Proof. unfold slot_at. by intros ->. Qed.
  Lemma slots_lookup s i c : length s = c -> i < c -> exists o, s !! i = Some o.
  Proof. intros <- Hi. apply lookup_lt_is_Some_2 in Hi. destruct Hi as [o ?]. eauto. Qed.

  Lemma try_get_loop_absent c s key : 4 <= c -> length s = c -> wf s ->
    (forall p e, s !! p = Some (Some e) -> ekey e <> key) ->
    forall fuel i d, i < c -> d <= c -> c < fuel + d ->
    try_get_loop fuel s c (shift_of c) (hash key) key i d = Ok None.
  Proof.
    intros Hc Hs W Hno. induction fuel as [|fuel IH]; intros i d Hi Hd Hf; [lia|].
    cbn [try_get_loop]. destruct (slots_lookup s i c Hs Hi) as [o Ho].
    rewrite (slot_at_ok _ _ _ Ho). cbn [mbind res_bind]. destruct o as [e|]; [|done].
    rewrite (bool_decide_eq_false_2 (ekey e = key)) by (by eapply Hno). rewrite andb_false_r.
    rewrite home_ok by lia. cbn [mbind res_bind].
    pose proof (dd_lt c i e Hc Hi (W _ _ Ho)) as Hdd. unfold dd in Hdd.
    destruct (Nat.ltb_spec (probe_dist c i (hm c (ehash e))) d); [done|].
    apply IH; [by apply next_slot_lt|lia|lia].
  Qed.

  Lemma try_get_loop_present c s key p e : 4 <= c -> length s = c -> wf s -> rh c s -> uniq s ->
    s !! p = Some (Some e) -> ekey e = key ->
    forall fuel d, d <= dd c p e -> dd c p e < fuel + d ->
    try_get_loop fuel s c (shift_of c) (hash key) key (ring c (hm c (hash key) + d)) d = Ok (Some p).
  Proof.
    intros Hc Hs W R U Hp <-. pose proof (W _ _ Hp) as We.
    assert (p < c) as Hpc by (apply lookup_lt_Some in Hp; lia).
    pose proof (dd_lt c p e Hc Hpc We) as Hdp. pose proof (wf_hm c e ltac:(lia) We) as Hh.
    unfold wf_entry in We. rewrite We in Hh.
    induction fuel as [|fuel IH]; intros d Hd Hf; [lia|].
    cbn [try_get_loop].
    assert (ring c (hm c (hash (ekey e)) + d) < c) as Hi by (apply ring_bound; lia).
    pose proof (reach' c s p e d Hc Hs R W Hp Hd) as HR. rewrite We in HR.
    destruct (slots_lookup s _ c Hs Hi) as [o Ho]. unfold dib in HR. rewrite Ho in HR.
    rewrite (slot_at_ok _ _ _ Ho). destruct o as [e'|]; [|lia]. cbn [mbind res_bind].
    case_bool_decide as Hk.
    - pose proof (U _ _ _ _ Ho Hp Hk) as Ep. rewrite Ep in *.
      assert (e' = e) as -> by congruence. rewrite We, Z.eqb_refl. done.
    - rewrite andb_false_r. rewrite home_ok by lia. cbn [mbind res_bind]. unfold dd in HR.
      destruct (Nat.ltb_spec (probe_dist c (ring c (hm c (hash (ekey e)) + d)) (hm c (ehash e'))) d); [lia|].
      rewrite next_slot_ring by lia.
      destruct (decide (d = dd c p e)) as [->|].
      + exfalso. apply Hk. unfold dd in Ho. rewrite We in Ho. rewrite probe_dist_ring in Ho by done. congruence.
      + apply IH; lia.
  Qed.

  Lemma erase_probe_absent c s key : 4 <= c -> length s = c -> wf s ->
    (forall p e, s !! p = Some (Some e) -> ekey e <> key) ->
    forall fuel i d, i < c -> d <= c -> c < fuel + d ->
    erase_probe fuel s c (shift_of c) (hash key) key i d = Ok None.
  Proof.
    intros Hc Hs W Hno. induction fuel as [|fuel IH]; intros i d Hi Hd Hf; [lia|].
    cbn [erase_probe]. destruct (slots_lookup s i c Hs Hi) as [o Ho].
    rewrite (slot_at_ok _ _ _ Ho). cbn [mbind res_bind].
    set (k := match o with Some e => ehash e | None => 0%Z end).
    assert (hm c k < c) as Hk.
    { subst k. destruct o as [e|]; [apply wf_hm; [lia|eauto]|]. apply hm_lt; lia. }
    replace ((k =? hash key)%Z && _) with false.
    2: { symmetry. subst k. destruct o as [e|].
         - rewrite (bool_decide_eq_false_2 (ekey e = key)) by (by eapply Hno). apply andb_false_r.
         - destruct (Z.eqb_spec 0 (hash key)) as [E0|]; [|done]. pose proof (hash_ok key). lia. }
    rewrite home_ok by lia. cbn [mbind res_bind].
    pose proof (probe_dist_lt c i (hm c k) Hi Hk).
    destruct (Nat.ltb_spec (probe_dist c i (hm c k)) d); [done|].
    apply IH; [by apply next_slot_lt|lia|lia].
  Qed.

  Lemma erase_probe_present c s key p e : 4 <= c -> length s = c -> wf s -> rh c s -> uniq s ->
    s !! p = Some (Some e) -> ekey e = key ->
    forall fuel d, d <= dd c p e -> dd c p e < fuel + d ->
    erase_probe fuel s c (shift_of c) (hash key) key (ring c (hm c (hash key) + d)) d = Ok (Some p).
  Proof.
    intros Hc Hs W R U Hp <-. pose proof (W _ _ Hp) as We.
    assert (p < c) as Hpc by (apply lookup_lt_Some in Hp; lia).
    pose proof (dd_lt c p e Hc Hpc We) as Hdp. pose proof (wf_hm c e ltac:(lia) We) as Hh.
    unfold wf_entry in We. rewrite We in Hh.
    induction fuel as [|fuel IH]; intros d Hd Hf; [lia|].
    cbn [erase_probe].
    assert (ring c (hm c (hash (ekey e)) + d) < c) as Hi by (apply ring_bound; lia).
    pose proof (reach' c s p e d Hc Hs R W Hp Hd) as HR. rewrite We in HR.
    destruct (slots_lookup s _ c Hs Hi) as [o Ho]. unfold dib in HR. rewrite Ho in HR.
    rewrite (slot_at_ok _ _ _ Ho). destruct o as [e'|]; [|lia]. cbn [mbind res_bind].
    case_bool_decide as Hk.
    - pose proof (U _ _ _ _ Ho Hp Hk) as Ep. rewrite Ep in *.
      assert (e' = e) as -> by congruence. rewrite We, Z.eqb_refl. done.
    - rewrite andb_false_r. rewrite home_ok by lia. cbn [mbind res_bind]. unfold dd in HR.
      destruct (Nat.ltb_spec (probe_dist c (ring c (hm c (hash (ekey e)) + d)) (hm c (ehash e'))) d); [lia|].
      rewrite next_slot_ring by lia.
      destruct (decide (d = dd c p e)) as [->|].
      + exfalso. apply Hk. unfold dd in Ho. rewrite We in Ho. rewrite probe_dist_ring in Ho by done. congruence.
      + apply IH; lia.
  Qed.

  (** ** The entries of a table *)
  Notation ents s := (omap id s).

  Lemma ents_insert s i (o o' : option entry) : s !! i = Some o ->
    option_list o ++ ents (<[i:=o']> s) ≡ₚ option_list o' ++ ents s.
  Proof.
    revert i. induction s as [|a s IH]; intros [|i] Hi; try done.
    - cbn in Hi. injection Hi as ->. cbn. destruct o as [e|], o' as [e'|]; cbn; try done. by apply Permutation_swap.
    - cbn in Hi. specialize (IH i Hi). destruct a as [a|]; cbn; [|done].
      rewrite <- !Permutation_middle. by rewrite IH.
  Qed.

  Lemma ents_elem s e : e ∈ ents s <-> exists i, s !! i = Some (Some e).
  Proof.
    rewrite elem_of_list_omap. split.
    - intros (o & Ho & E). cbn in E. subst o. by apply elem_of_list_lookup in Ho.
    - intros [i Hi]. exists (Some e). split; [by eapply elem_of_list_lookup_2|done].
  Qed.

  Lemma uniq_nodup s : uniq s <-> NoDup (ekey <$> ents s).
  Proof.
    induction s as [|a s IH]; [split; [constructor|intros _ ????; by rewrite lookup_nil]|].
    split.
    - intros U. assert (NoDup (ekey <$> ents s)) as N.
      { apply IH. intros p q e e' Hp Hq E. specialize (U (S p) (S q) e e' Hp Hq E). lia. }
      destruct a as [a|]; cbn; [|done]. constructor; [|done].
      intros Hin. apply elem_of_list_fmap in Hin as (e' & E & He'). apply ents_elem in He' as [q Hq].
      specialize (U 0 (S q) a e' eq_refl Hq E). lia.
    - intros N. assert (NoDup (ekey <$> ents s)) as N' by (destruct a; [by apply NoDup_cons in N as [_ N]|done]).
      assert (U := proj2 IH N'). intros [|p] [|q] e e' Hp Hq E; [done| | |].
      + exfalso. cbn in Hp. injection Hp as ->. cbn in N. apply NoDup_cons in N as [N _]. apply N.
        rewrite E. apply elem_of_list_fmap. exists e'. split; [done|]. apply ents_elem. eauto.
      + exfalso. cbn in Hq. injection Hq as ->. cbn in N. apply NoDup_cons in N as [N _]. apply N.
        rewrite <- E. apply elem_of_list_fmap. exists e. split; [done|]. apply ents_elem. eauto.
      + f_equal. by eapply U.
  Qed.

  Lemma wf_forall s : wf s <-> Forall wf_entry (ents s).
  Proof.
    rewrite Forall_forall. split.
    - intros W e He. apply ents_elem in He as [i Hi]. eauto.
    - intros F i e Hi. apply F, ents_elem. eauto.
  Qed.

  Lemma ents_replicate n : ents (replicate n (@None entry)) = [].
  Proof. by induction n. Qed.

  Lemma vacant_exists s : length (ents s) < length s -> exists i, s !! i = Some None.
  Proof.
    induction s as [|[a|] s IH]; cbn; intros H.
    - lia.
    - destruct IH as [i Hi]; [lia|]. by exists (S i).
    - by exists 0.
  Qed.

  Lemma ents_length s : length (ents s) <= length s.
  Proof. induction s as [|[a|] s IH]; cbn; lia. Qed.

  (** ** Insertion *)
  Lemma perm_uniq s s' x y : uniq s -> (forall p e, s !! p = Some (Some e) -> ekey e <> ekey x) ->
    y :: ents s' ≡ₚ x :: ents s -> uniq s' /\ (forall p e, s' !! p = Some (Some e) -> ekey e <> ekey y).
  Proof.
    intros U Hx P. apply uniq_nodup in U.
    assert (NoDup (ekey <$> (y :: ents s'))) as N.
    { rewrite P. cbn. constructor; [|done]. intros Hin. apply elem_of_list_fmap in Hin as (e & E & He).
      apply ents_elem in He as [p Hp]. by apply (Hx p e Hp). }
    cbn in N. apply NoDup_cons in N as [N1 N2]. split; [by apply uniq_nodup|].
    intros p e Hp E. apply N1. rewrite <- E. apply elem_of_list_fmap. exists e. split; [done|]. apply ents_elem. eauto.
  Qed.

  Lemma perm_wf s s' x y : wf s -> wf_entry x -> y :: ents s' ≡ₚ x :: ents s -> wf s' /\ wf_entry y.
  Proof.
    intros W Wx P. apply wf_forall in W.
    assert (Forall wf_entry (y :: ents s')) as F by (rewrite P; by constructor).
    inversion F; subst. split; [by apply wf_forall|done].
  Qed.

  (** What an insertion of [x] does to the table. *)
  Definition inserted s s' x (ds : list entry) : Prop :=
    (ds = [] /\ (forall p e, s !! p = Some (Some e) -> ekey e <> ekey x) /\ ents s' ≡ₚ x :: ents s) \/
    (exists p e, s !! p = Some (Some e) /\ ds = [e] /\ ekey e = ekey x /\ e :: ents s' ≡ₚ x :: ents s).

  Lemma rh_place c s i x : 4 <= c -> length s = c -> i < c -> rh c s ->
    dib c s i <= S (dd c i x) -> (forall p, p < c -> next_slot c p = i -> dd c i x <= dib c s p) ->
    rh c (<[i:=Some x]> s).
  Proof.
    intros Hc Hs Hi R H1 H2 q Hq. 
    destruct (decide (q = i)) as [->|Nq].
    - rewrite dib_insert_ne by (apply not_eq_sym; by apply next_slot_ne).
      rewrite dib_insert by lia. specialize (R i Hi). lia.
    - rewrite (dib_insert_ne c s i q) by done. destruct (decide (next_slot c q = i)) as [E|N].
      + rewrite E, dib_insert by lia. specialize (H2 q Hq E). lia.
      + rewrite dib_insert_ne by done. by apply R.
  Qed.

  Lemma insert_loop_spec c : 4 <= c ->
    forall j fuel s x i d pl,
    length s = c -> i < c -> rh c s -> wf s -> uniq s -> wf_entry x -> d = dd c i x ->
    (forall p, p < c -> next_slot c p = i -> d <= dib c s p) ->
    (forall p e, s !! p = Some (Some e) -> ekey e = ekey x -> d <= dd c p e) ->
    s !! ring c (i + j) = Some None -> j < c -> j < fuel ->
    exists s' i' ds, insert_loop fuel s c (shift_of c) x i d pl = Ok (s', i', ds) /\
      length s' = c /\ rh c s' /\ inserted s s' x ds /\
      (match pl with None => s' !! i' = Some (Some x) | Some p => ds = [] -> i' = p end) /\
      (forall q, (forall t, t <= j -> q <> ring c (i + t)) -> s' !! q = s !! q).
  Proof.
    intros Hc. induction j as [|j IH]; intros fuel s x i d pl Hs Hi R W U Wx Hd HD HJ Hv Hj Hf;
      (destruct fuel as [|fuel]; [lia|]); cbn [insert_loop].
    all: assert (forall p e, s !! p = Some (Some e) -> ekey e = ekey x -> dib c s i < S d -> False) as Hkey.
    1, 3: intros p e Hp Ek Hlt; pose proof (HJ p e Hp Ek) as Hle;
      pose proof (reach' c s p e d Hc Hs R W Hp Hle) as HR;
      pose proof (W _ _ Hp) as We; unfold wf_entry in We, Wx; rewrite We, Ek, <- Wx, Hd in HR;
      unfold dd in HR; rewrite probe_dist_ring in HR by (first [done|apply wf_hm; [lia|done]]); unfold dd in Hd; lia.
    - rewrite Nat.add_0_r, ring_lt in Hv by done. rewrite (slot_at_ok _ _ _ Hv). cbn [mbind res_bind].
      pose proof (dib_none c s i Hv) as Hz.
      eexists _, _, _. split; [done|]. split; [by rewrite insert_length|].
      split. { apply rh_place; [done..|lia|]. intros p Hp E. rewrite <- Hd. eauto. }
      split. { left. split; [done|]. split.
               - intros p e Hp Ek. apply (Hkey p e Hp Ek). lia.
               - pose proof (ents_insert s i None (Some x) Hv) as P. exact P. }
      split. { destruct pl; [done|]. cbn. apply list_lookup_insert. lia. }
      intros q Hq. apply list_lookup_insert_ne. specialize (Hq 0 ltac:(lia)). rewrite Nat.add_0_r, ring_lt in Hq by done. done.
    - destruct (slots_lookup s i c Hs Hi) as [o Ho]. rewrite (slot_at_ok _ _ _ Ho). cbn [mbind res_bind].
      destruct o as [e|].
      2: { pose proof (dib_none c s i Ho) as Hz.
        eexists _, _, _. split; [done|]. split; [by rewrite insert_length|].
        split. { apply rh_place; [done..|lia|]. intros p Hp E. rewrite <- Hd. eauto. }
        split. { left. split; [done|]. split.
                 - intros p e Hp Ek. apply (Hkey p e Hp Ek). lia.
                 - pose proof (ents_insert s i None (Some x) Ho) as P. exact P. }
        split. { destruct pl; [done|]. cbn. apply list_lookup_insert. lia. }
        intros q Hq. apply list_lookup_insert_ne. specialize (Hq 0 ltac:(lia)). rewrite Nat.add_0_r, ring_lt in Hq by done. done. }
      pose proof (W _ _ Ho) as We.
      pose proof (dib_some c s i e Ho) as He.
      pose proof (ents_insert s i (Some e) (Some x) Ho) as P. cbn [option_list app] in P.
      destruct ((ehash e =? ehash x)%Z && bool_decide (ekey e = ekey x)) eqn:Em.
      + apply andb_true_iff in Em as [Eh Ek]. apply Z.eqb_eq in Eh. apply bool_decide_eq_true in Ek.
        assert (dd c i e = dd c i x) as Edd by (unfold dd; by rewrite Eh).
        eexists _, _, _. split; [done|]. split; [by rewrite insert_length|].
        split. { apply rh_place; [done..|lia|]. intros p Hp E. rewrite <- Hd. eauto. }
        split. { right. exists i, e. done. }
        split. { destruct pl; [done|]. apply list_lookup_insert. lia. }
        intros q Hq. apply list_lookup_insert_ne. specialize (Hq 0 ltac:(lia)). rewrite Nat.add_0_r, ring_lt in Hq by done. done.
      + rewrite home_ok by lia. cbn [mbind res_bind]. fold (dd c i e).
        pose proof (dd_far c s i e _ Hc Hs R W Ho Hv) as Hfar.
        pose proof (wf_hm c e ltac:(lia) We) as Hhe. pose proof (wf_hm c x ltac:(lia) Wx) as Hhx.
        destruct (Nat.ltb_spec (dd c i e) d) as [Hlt|Hge].
        * assert (forall p e', s !! p = Some (Some e') -> ekey e' <> ekey x) as Hno.
          { intros p e' Hp Ek. apply (Hkey p e' Hp Ek). lia. }
          destruct (perm_uniq s (<[i:=Some x]> s) x e U Hno P) as [U' Hno'].
          destruct (perm_wf s (<[i:=Some x]> s) x e W Wx P) as [W' _].
          assert (rh c (<[i:=Some x]> s)) as R'.
          { apply rh_place; [done..|lia|]. intros p Hp E. rewrite <- Hd. eauto. }
          assert (i <> ring c (i + S j)) as Nv.
          { intros E. rewrite <- E in Hv. congruence. }
          destruct (IH fuel (<[i:=Some x]> s) e (next_slot c i) (S (dd c i e)) (Some (default i pl)))
            as (s' & i' & ds & -> & Hl' & Rh' & Hins & Hpl & Hfr).
          -- by rewrite insert_length.
          -- by apply next_slot_lt.
          -- done.
          -- done.
          -- done.
          -- done.
          -- unfold dd. rewrite probe_dist_next; done.
          -- intros p Hp E. apply next_slot_inj in E; [|done..]. subst p. rewrite dib_insert by lia. lia.
          -- intros p e' Hp Ek. exfalso. by apply (Hno' p e' Hp).
          -- rewrite ring_next by lia. by rewrite list_lookup_insert_ne.
          -- lia.
          -- lia.
          -- destruct Hins as [(-> & Hn & P')|(p & e' & Hp & _ & Ek & _)]; [|exfalso; by apply (Hno' p e' Hp)].
             exists s', i', []. split; [done|]. split; [done|]. split; [done|]. split.
             { left. split; [done|]. split; [done|]. by rewrite P', P. }
             specialize (Hpl eq_refl). subst i'. split.
             { destruct pl; [done|]. cbn. rewrite Hfr.
               - apply list_lookup_insert. lia.
               - intros t Ht E. rewrite ring_next in E by lia.
                 rewrite <- (ring_lt c i) in E at 1 by done. rewrite <- (Nat.add_0_r i) in E at 1.
                 apply ring_inj in E; lia. }
             intros q Hq. rewrite Hfr.
             { apply list_lookup_insert_ne. specialize (Hq 0 ltac:(lia)). rewrite Nat.add_0_r, ring_lt in Hq by done. done. }
             intros t Ht. rewrite ring_next by lia. apply Hq. lia.
        * destruct (IH fuel s x (next_slot c i) (S d) pl)
            as (s' & i' & ds & -> & Hl' & Rh' & Hins & Hpl & Hfr); [done|by apply next_slot_lt|done..| | | | | | |].
          -- unfold dd. rewrite probe_dist_next; [by rewrite Hd|done..|]. fold (dd c i x). lia.
          -- intros p Hp E. apply next_slot_inj in E; [|done..]. subst p. lia.
          -- intros p e' Hp Ek. pose proof (HJ p e' Hp Ek) as Hle.
             destruct (decide (d = dd c p e')) as [Edd|]; [|lia]. exfalso.
             pose proof (W _ _ Hp) as We'. unfold wf_entry in We', Wx.
             assert (ehash e' = ehash x) as Eh by congruence.
             assert (p < c) as Hpc by (apply lookup_lt_Some in Hp; lia).
             assert (p = i) as ->.
             { rewrite <- (probe_dist_ring c p (hm c (ehash x))) by done.
               rewrite <- (probe_dist_ring c i (hm c (ehash x))) by done.
               unfold dd in Edd, Hd. rewrite Eh in Edd. congruence. }
             assert (e' = e) as -> by congruence. rewrite Eh, Z.eqb_refl, bool_decide_eq_true_2 in Em by done. done.
          -- by rewrite ring_next by lia.
          -- lia.
          -- lia.
          -- exists s', i', ds. split; [done|]. split; [done|]. split; [done|]. split; [done|]. split; [done|].
             intros q Hq. apply Hfr. intros t Ht. rewrite ring_next by lia. apply Hq. lia.
  Qed.

  Lemma insert_slot_spec c s x : 4 <= c -> length s = c -> rh c s -> wf s -> uniq s -> wf_entry x ->
    length (ents s) < c ->
    exists s' i' ds, insert_slot s c (shift_of c) x = Ok (s', i', ds) /\
      length s' = c /\ rh c s' /\ inserted s s' x ds /\ s' !! i' = Some (Some x).
  Proof.
    intros Hc Hs R W U Wx Hn. unfold insert_slot. rewrite home_ok by lia. cbn [mbind res_bind].
    pose proof (wf_hm c x ltac:(lia) Wx) as Hh.
    destruct (vacant_exists s ltac:(lia)) as [z Hz].
    assert (z < c) as Hzc by (apply lookup_lt_Some in Hz; lia).
    destruct (ring_onto c (hm c (ehash x)) z Hh Hzc) as (j & Hj & Ej).
    destruct (insert_loop_spec c Hc j c s x (hm c (ehash x)) 0 None) as (s' & i' & ds & -> & ? & ? & ? & ? & _); try done.
    - unfold dd, probe_dist. rewrite (proj2 (Nat.leb_le _ _)) by lia. lia.
    - intros. lia.
    - intros. lia.
    - by rewrite Ej.
    - eauto 10.
  Qed.

  Lemma inserted_inv s s' x ds : inserted s s' x ds -> wf s -> uniq s -> wf_entry x -> wf s' /\ uniq s'.
  Proof.
    intros [(_ & Hno & P)|(p & e & Hp & _ & Ek & P)] W U Wx.
    - assert (x :: ents s' ≡ₚ x :: x :: ents s) as _ by by rewrite P.
      split.
      + apply wf_forall. rewrite P. constructor; [done|]. by apply wf_forall.
      + apply uniq_nodup. rewrite P. cbn. constructor; [|by apply uniq_nodup].
        intros Hin. apply elem_of_list_fmap in Hin as (e & E & He). apply ents_elem in He as [q Hq]. by apply (Hno q e Hq).
    - destruct (perm_wf s s' x e W Wx P) as [W' _]. split; [done|].
      apply uniq_nodup. apply uniq_nodup in U.
      assert (e ∈ ents s) as He by (apply ents_elem; eauto).
      apply elem_of_Permutation in He as [rest Pr]. rewrite Pr in P.
      assert (ents s' ≡ₚ x :: rest) as P'. { apply (Permutation_cons_inv (a := e)). rewrite P. by apply Permutation_swap. }
      rewrite P'. rewrite Pr in U. cbn in *. by rewrite <- Ek.
  Qed.

  Lemma rehash_spec c old : 4 <= c -> forall s,
    length s = c -> rh c s -> wf s -> uniq s -> Forall wf_entry (ents old) ->
    NoDup (ekey <$> (ents old ++ ents s)) -> length (ents old) + length (ents s) < c ->
    exists s', rehash old s c (shift_of c) = Ok (s', []) /\ length s' = c /\ rh c s' /\
      ents s' ≡ₚ ents old ++ ents s.
  Proof.
    intros Hc. induction old as [|[e|] old IH]; intros s Hs R W U F N Hn; cbn [rehash].
    - exists s. done.
    - cbn in F, N, Hn. apply Forall_cons in F as [We F']. apply NoDup_cons in N as [N1 N2].
      destruct (insert_slot_spec c s e) as (s1 & i1 & ds & -> & Hl1 & R1 & Hins & _); try done; [lia|].
      destruct (inserted_inv _ _ _ _ Hins W U We) as [W1 U1].
      destruct Hins as [(-> & Hno & P)|(p & e' & Hp & _ & Ek & _)].
      2: { exfalso. apply N1. rewrite <- Ek. apply elem_of_list_fmap. exists e'. split; [done|].
           apply elem_of_app. right. apply ents_elem. eauto. }
      cbn [mbind res_bind].
      destruct (IH s1) as (s2 & E2 & Hl2 & R2 & P2); try done.
      + rewrite P. rewrite fmap_app. cbn. rewrite <- Permutation_middle. rewrite <- fmap_app. by constructor.
      + pose proof (Permutation_length P) as HL. cbn in HL. rewrite HL. lia.
      + rewrite E2. cbn. exists s2. split; [done|]. split; [done|]. split; [done|]. rewrite P2, P. by rewrite <- Permutation_middle.
    - cbn in F, N, Hn. by apply IH.
  Qed.

  (** ** Deletion *)
  Lemma fix_up_spec c : 4 <= c ->
    forall j fuel s i, length s = c -> i < c -> s !! i = Some None -> wf s ->
    (forall q, q < c -> q <> i -> dib c s (next_slot c q) <= S (dib c s q)) ->
    (forall p, p < c -> next_slot c p = i -> dib c s (next_slot c i) <= S (S (dib c s p))) ->
    s !! ring c (next_slot c i + j) = Some None -> S j < c -> j < fuel ->
    exists s', fix_up fuel s c (shift_of c) i = Ok (s', []) /\ length s' = c /\ rh c s' /\ ents s' ≡ₚ ents s.
  Proof.
    intros Hc. induction j as [|j IH]; intros fuel s i Hs Hi Hn W H1 H2 Hv Hj Hf;
      (destruct fuel as [|fuel]; [lia|]); cbn [fix_up].
    all: replace (if i =? c - 1 then 0 else S i) with (next_slot c i)
      by (unfold next_slot; destruct (Nat.eqb_spec (S i) c), (Nat.eqb_spec i (c - 1)); lia).
    all: pose proof (next_slot_lt c i Hi) as Hnx.
    all: assert (dib c s (next_slot c i) <= 1 -> rh c s) as Hstop.
    1, 3: intros Hle q Hq; destruct (decide (q = i)) as [->|]; [lia|by apply H1].
    - rewrite Nat.add_0_r, ring_lt in Hv by done. rewrite (slot_at_ok _ _ _ Hv). cbn [mbind res_bind].
      exists s. split; [done|]. split; [done|]. split; [|done]. apply Hstop. rewrite (dib_none _ _ _ Hv). lia.
    - destruct (slots_lookup s _ c Hs Hnx) as [o Ho]. rewrite (slot_at_ok _ _ _ Ho). cbn [mbind res_bind].
      destruct o as [e|].
      2: { exists s. split; [done|]. split; [done|]. split; [|done]. apply Hstop. rewrite (dib_none _ _ _ Ho). lia. }
      pose proof (W _ _ Ho) as We. pose proof (wf_hm c e ltac:(lia) We) as Hhe.
      rewrite home_ok by lia. cbn [mbind res_bind].
      destruct (Nat.eqb_spec (next_slot c i) (hm c (ehash e))) as [Eh|Nh].
      { exists s. split; [done|]. split; [done|]. split; [|done]. apply Hstop. rewrite (dib_some _ _ _ _ Ho).
        unfold dd, probe_dist. rewrite <- Eh. rewrite (proj2 (Nat.leb_le _ _)) by lia. lia. }
      rewrite (slot_at_ok _ _ _ Hn). cbn [mbind res_bind option_list app].
      pose proof (probe_dist_prev c i (hm c (ehash e)) Hi Hhe Nh) as Edd. fold (dd c i e) in Edd. fold (dd c (next_slot c i) e) in Edd.
      pose proof (dib_some c s _ e Ho) as Hde.
      pose proof (next_slot_ne c i Hc Hi) as Nni. pose proof (next_next_ne c i Hc Hi) as Nnni.
      pose proof (next_slot_ne c _ Hc Hnx) as Nnn. pose proof (next_slot_lt c _ Hnx) as Hnnx.
      set (s1 := <[next_slot c i:=None]> (<[i:=Some e]> s)).
      assert (length s1 = c) as Hs1 by (subst s1; by rewrite !insert_length).
      assert (dib c s1 i = S (dd c i e)) as D1.
      { subst s1. rewrite dib_insert_ne by done. by rewrite dib_insert by lia. }
      assert (dib c s1 (next_slot c i) = 0) as D2.
      { subst s1. rewrite dib_insert; [done|]. rewrite insert_length. lia. }
      assert (forall q, q <> i -> q <> next_slot c i -> dib c s1 q = dib c s q) as D3.
      { intros q ??. subst s1. rewrite !dib_insert_ne by done. done. }
      assert (ents s1 ≡ₚ ents s) as P1.
      { pose proof (ents_insert s i None (Some e) Hn) as Pa. cbn in Pa.
        pose proof (ents_insert (<[i:=Some e]> s) (next_slot c i) (Some e) None) as Pb.
        rewrite list_lookup_insert_ne in Pb by done. specialize (Pb Ho). cbn in Pb. fold s1 in Pb.
        apply (Permutation_cons_inv (a := e)). by rewrite Pb, Pa. }
      assert (wf s1) as W1. { apply wf_forall. rewrite P1. by apply wf_forall. }
      destruct (IH fuel s1 (next_slot c i)) as (s' & -> & Hl' & R' & P'); try done.
      + subst s1. apply list_lookup_insert. rewrite insert_length. lia.
      + intros q Hq Nq. destruct (decide (q = i)) as [->|Nqi]; [rewrite D2; lia|].
        rewrite (D3 q) by done. destruct (decide (next_slot c q = i)) as [E|N].
        * rewrite E, D1. specialize (H2 q Hq E). lia.
        * rewrite D3; [by apply H1|done|]. intros E. apply next_slot_inj in E; done.
      + intros p Hp E. apply next_slot_inj in E; [|done..]. subst p. rewrite D1, D3 by done.
        specialize (H1 _ Hnx Nni). lia.
      + rewrite ring_next by lia.
        assert (next_slot c i <> ring c (next_slot c i + S j)) as Na.
        { intros E. rewrite <- (ring_lt c (next_slot c i)) in E at 1 by done.
          rewrite <- (Nat.add_0_r (next_slot c i)) in E at 1. apply ring_inj in E; lia. }
        assert (i <> ring c (next_slot c i + S j)) as Nb.
        { rewrite ring_next by lia. intros E. rewrite <- (ring_lt c i) in E at 1 by done.
          rewrite <- (Nat.add_0_r i) in E at 1. apply ring_inj in E; lia. }
        subst s1. by rewrite !list_lookup_insert_ne.
      + lia.
      + lia.
      + cbn. exists s'. split; [done|]. split; [done|]. split; [done|]. by rewrite P', P1.
  Qed.

  Lemma delete_spec c s i e z : 4 <= c -> length s = c -> rh c s -> wf s -> s !! i = Some (Some e) ->
    s !! z = Some None ->
    exists s', fix_up c (<[i:=None]> s) c (shift_of c) i = Ok (s', []) /\ length s' = c /\ rh c s' /\
      e :: ents s' ≡ₚ ents s.
  Proof.
    intros Hc Hs R W Hi Hz. assert (i < c) as Hic by (apply lookup_lt_Some in Hi; lia).
    assert (z < c) as Hzc by (apply lookup_lt_Some in Hz; lia).
    pose proof (next_slot_lt c i Hic) as Hnx.
    pose proof (next_slot_ne c i Hc Hic) as Nni.
    pose proof (ents_insert s i (Some e) None Hi) as P. cbn in P.
    destruct (ring_onto c (next_slot c i) z Hnx Hzc) as (j & Hj & Ej).
    assert (z <> i) as Nz by congruence.
    assert (S j < c) as Hj'.
    { destruct (decide (S j = c)) as [E|]; [|lia]. exfalso. apply Nz. rewrite <- Ej.
      unfold next_slot, ring. destruct (Nat.eqb_spec (S i) c).
      - destruct (Nat.ltb_spec (0 + j) c); lia.
      - destruct (Nat.ltb_spec (S i + j) c); lia. }
    destruct (fix_up_spec c Hc j c (<[i:=None]> s) i) as (s' & -> & Hl & R' & P').
    - by rewrite insert_length.
    - done.
    - apply list_lookup_insert. lia.
    - apply wf_forall. apply wf_forall in W. rewrite <- P in W. by inversion W.
    - intros q Hq Nq. rewrite (dib_insert_ne c s i q) by done. destruct (decide (next_slot c q = i)) as [->|N].
      + rewrite dib_insert by lia. lia.
      + rewrite dib_insert_ne by done. by apply R.
    - intros p Hp E. rewrite dib_insert_ne by done.
      assert (p <> i) by (intros ->; done). rewrite dib_insert_ne by done.
      pose proof (R i Hic). pose proof (R p Hp) as Rp. rewrite E in Rp. lia.
    - rewrite Ej. by rewrite list_lookup_insert_ne.
    - done.
    - lia.
    - exists s'. split; [done|]. split; [done|]. split; [done|]. by rewrite P'.
  Qed.

  (** ** Maps *)
  Record minv m : Prop := {
    mi_len : length (mdata m) = mcapacity m;
    mi_cap : mcapacity m <> 1;
    mi_shift : mcapacity m = 0 \/ mshift m = shift_of (mcapacity m);
    mi_usable : musable m = usable_of (mcapacity m);
    mi_count : length (ents (mdata m)) <= mlength m;
    mi_load : mlength m <= musable m;
    mi_wf : wf (mdata m);
    mi_uniq : uniq (mdata m);
    mi_rh : rh (mcapacity m) (mdata m) }.

  Definition mrel m (f : K -> option V) : Prop := forall k v, (k, v) ∈ map_iterate m <-> f k = Some v.
  Definition mpow m : Prop := mcapacity m = 0 \/ is_pow2 (mcapacity m).

  Lemma iterate_elem m k v : (k, v) ∈ map_iterate m <-> exists p e, mdata m !! p = Some (Some e) /\ ekey e = k /\ evalue e = v.
  Proof.
    unfold map_iterate, kvs. rewrite elem_of_list_fmap. split.
    - intros (e & E & He). apply ents_elem in He as [p Hp]. injection E as -> ->. eauto.
    - intros (p & e & Hp & <- & <-). exists e. split; [done|]. apply ents_elem. eauto.
  Qed.

  Lemma iterate_nodup m : uniq (mdata m) -> NoDup (fst <$> map_iterate m).
  Proof.
    intros U. apply uniq_nodup in U. unfold map_iterate, kvs. rewrite <- list_fmap_compose. exact U.
  Qed.

  Lemma usable_lt c : 0 < c -> usable_of c < c.
  Proof. unfold usable_of. intros. pose proof (Nat.mul_div_le c 4 ltac:(lia)). lia. Qed.
  Lemma usable_4 c : 0 < usable_of c -> 4 <= c.
  Proof. unfold usable_of. intros H. destruct (le_lt_dec 4 c); [done|]. rewrite Nat.div_small in H by done. lia. Qed.
  Lemma usable_mono c c' : c <= c' -> usable_of c <= usable_of c'.
  Proof. unfold usable_of. intros. pose proof (Nat.div_le_mono c c' 4 ltac:(lia) ltac:(lia)). lia. Qed.
  Lemma usable_grow c : 2 <= c -> usable_of c < usable_of (2 * c).
  Proof.
    unfold usable_of. intros. pose proof (Nat.div_mod c 4 ltac:(lia)). pose proof (Nat.mod_upper_bound c 4 ltac:(lia)).
    pose proof (Nat.div_mod (2 * c) 4 ltac:(lia)). pose proof (Nat.mod_upper_bound (2 * c) 4 ltac:(lia)). lia.
  Qed.

  Lemma dib_nones c n i : dib c (replicate n None) i = 0.
  Proof.
    unfold dib. destruct (replicate n (@None entry) !! i) as [o|] eqn:E; [|done].
    apply lookup_replicate in E as [-> _]. done.
  Qed.
  Lemma nones_ok c n : wf (replicate n None) /\ uniq (replicate n None) /\ rh c (replicate n None).
  Proof.
    split; [|split].
    - intros i e E. apply lookup_replicate in E as [E _]. done.
    - intros p q e e' E. apply lookup_replicate in E as [E _]. done.
    - intros i _. rewrite !dib_nones. lia.
  Qed.

  Lemma minv_fresh cap len sh : cap <> 1 -> cap = 0 \/ sh = shift_of cap -> len <= usable_of cap ->
    minv (mk_map (replicate cap None) cap len (usable_of cap) sh).
  Proof.
    intros H1 H2 H3. destruct (nones_ok cap cap) as (?&?&?).
    split; cbn [mdata mcapacity mlength musable mshift]; try done; [by rewrite replicate_length|]. rewrite ents_replicate. cbn [length]. lia.
  Qed.

  Lemma map_empty_minv : minv map_empty.
  Proof. exact (minv_fresh 0 0 0 ltac:(lia) (or_introl eq_refl) ltac:(unfold usable_of; cbn; lia)). Qed.

  Lemma next_pow2_not1 n : n <> 1 -> next_pow2_nat n <> 1.
  Proof.
    intros Hn. unfold next_pow2_nat. destruct n as [|n]; [done|]. destruct n as [|n]; [done|].
    pose proof (Nat.log2_up_pos (S (S n)) ltac:(lia)).
    destruct (Nat.log2_up (S (S n))) as [|k]; [lia|]. cbn [Nat.pow]. pose proof (Nat.pow_nonzero 2 k ltac:(lia)). lia.
  Qed.
  Lemma next_pow2_fix c : c = 0 \/ is_pow2 c -> next_pow2_nat c = c.
  Proof.
    intros [->|[k ->]]; [done|]. pose proof (Nat.pow_nonzero 2 k ltac:(lia)).
    unfold next_pow2_nat. destruct (2 ^ k) as [|n] eqn:E; [lia|]. rewrite <- E. by rewrite Nat.log2_up_pow2 by lia.
  Qed.
  Lemma next_pow2_pow n : next_pow2_nat n = 0 \/ is_pow2 (next_pow2_nat n).
  Proof. destruct n as [|n]; [by left|right]. unfold next_pow2_nat. by eexists. Qed.

  Lemma with_capacity_ok n : n <> 1 ->
    let m : map K V := map_with_capacity n in
    minv m /\ mrel m fm_empty /\ mpow m /\ mlength m = 0 /\ map_iterate m = [].
  Proof.
    intros Hn m. assert (map_iterate m = []) as E.
    { unfold map_iterate, m, map_with_capacity. cbn [mdata]. by rewrite ents_replicate. }
    split; [|split; [|split; [|split]]].
    - apply minv_fresh; [by apply next_pow2_not1|by right|lia].
    - intros k v. rewrite E. split; [intros H; by apply elem_of_nil in H|done].
    - apply next_pow2_pow.
    - done.
    - done.
  Qed.

  Lemma minv_empty_ents m : minv m -> mlength m = 0 -> ents (mdata m) = [].
  Proof. intros I H. pose proof (mi_count m I). destruct (ents (mdata m)); [done|]. cbn in *. lia. Qed.

  Lemma minv_cap4 m : minv m -> 0 < mlength m -> 4 <= mcapacity m.
  Proof. intros I H. apply usable_4. rewrite <- (mi_usable m I). pose proof (mi_load m I). lia. Qed.

  Lemma find_cases m f key : mrel m f ->
    (exists p e, mdata m !! p = Some (Some e) /\ ekey e = key /\ f key = Some (evalue e)) \/
    ((forall p e, mdata m !! p = Some (Some e) -> ekey e <> key) /\ f key = None).
  Proof.
    intros Hr. destruct (f key) as [v|] eqn:E.
    - left. apply Hr, iterate_elem in E as (p & e & Hp & Ek & Ev). exists p, e. by rewrite Ev.
    - right. split; [|done]. intros p e Hp Ek.
      assert (f key = Some (evalue e)); [|congruence]. apply Hr, iterate_elem. eauto.
  Qed.

  Lemma minv_shift m : minv m -> 4 <= mcapacity m -> mshift m = shift_of (mcapacity m).
  Proof. intros I H. destruct (mi_shift m I) as [?|?]; [lia|done]. Qed.

  Lemma start_ring c h : h < c -> ring c (h + 0) = h.
  Proof. intros. rewrite Nat.add_0_r. by apply ring_lt. Qed.

  Lemma try_get_present m p e : minv m -> mdata m !! p = Some (Some e) -> try_get_ hash m (ekey e) = Ok (Some p).
  Proof.
    intros I Hp. assert (e ∈ ents (mdata m)) as He by (apply ents_elem; eauto).
    assert (4 <= mcapacity m) as Hc.
    { apply minv_cap4; [done|]. pose proof (mi_count m I). destruct (ents (mdata m)); [by apply elem_of_nil in He|]. cbn in *. lia. }
    unfold try_get_. rewrite (minv_shift m I Hc), home_ok by lia. cbn [mbind res_bind].
    assert (p < mcapacity m) as Hpc by (rewrite <- (mi_len m I); by eapply lookup_lt_Some).
    pose proof (dd_lt (mcapacity m) p e Hc Hpc (mi_wf m I p e Hp)).
    pose proof (wf_hm (mcapacity m) e ltac:(lia) (mi_wf m I p e Hp)) as Hh. rewrite (mi_wf m I p e Hp) in Hh.
    rewrite <- (start_ring (mcapacity m) (hm (mcapacity m) (hash (ekey e)))) by done.
    eapply try_get_loop_present; [done|apply I|apply I|apply I|apply I|done|done|lia|lia].
  Qed.
  Lemma try_get_absent m key : minv m -> 0 < mlength m ->
    (forall p e, mdata m !! p = Some (Some e) -> ekey e <> key) -> try_get_ hash m key = Ok None.
  Proof.
    intros I Hl Hno. pose proof (minv_cap4 m I Hl) as Hc.
    unfold try_get_. rewrite (minv_shift m I Hc), home_ok by lia. cbn [mbind res_bind].
    apply try_get_loop_absent; [done|apply I|apply I|done| |lia|lia].
    apply hm_lt; [lia|]. pose proof (hash_ok key). lia.
  Qed.

  Lemma map_try_get_ok m f key : minv m -> mrel m f -> map_try_get hash m key = Ok (f key).
  Proof.
    intros I Hr. unfold map_try_get, map_is_empty. destruct (Nat.eqb_spec (mlength m) 0) as [E0|N0].
    - pose proof (minv_empty_ents m I E0) as E. destruct (find_cases m f key Hr) as [(p & e & Hp & _)|[_ ->]]; [|done].
      assert (e ∈ ents (mdata m)) as He by (apply ents_elem; eauto). rewrite E in He. by apply elem_of_nil in He.
    - destruct (find_cases m f key Hr) as [(p & e & Hp & <- & ->)|[Hno ->]].
      + rewrite (try_get_present m p e I Hp). cbn [mbind res_bind]. rewrite (slot_at_ok _ _ _ Hp). done.
      + rewrite (try_get_absent m key I) by (done || lia). done.
  Qed.

  (** Replacing the slots by others with given entries. *)
  Lemma mrel_perm m f l : mrel m f -> map_iterate m ≡ₚ l -> forall k v, (k, v) ∈ l <-> f k = Some v.
  Proof. intros Hr P k v. rewrite <- P. apply Hr. Qed.

  Lemma rehash_nones old s c sh : ents old = [] -> rehash old s c sh = Ok (s, []).
  Proof. induction old as [|[e|] old IH]; cbn; intros H; [done|done|by apply IH]. Qed.

  Lemma map_reserve_ok m n : minv m -> n <> 1 ->
    exists m', map_reserve m n = Ok (m', []) /\ minv m' /\ ents (mdata m') ≡ₚ ents (mdata m) /\
      mlength m' = mlength m /\ mcapacity m' = Nat.max (mcapacity m) n.
  Proof.
    intros I Hn. unfold map_reserve. destruct (Nat.leb_spec n (mcapacity m)) as [Hle|Hgt].
    { exists m. split; [done|]. split; [done|]. split; [done|]. split; [done|]. lia. }
    pose proof (usable_mono (mcapacity m) n ltac:(lia)) as Hus. pose proof (mi_usable m I) as Eu. pose proof (mi_load m I) as Hl.
    destruct (le_lt_dec 4 n) as [H4|H4].
    - destruct (nones_ok n n) as (W&U&R).
      assert (length (ents (mdata m)) < n) as Hlt.
      { pose proof (mi_count m I). destruct (decide (mcapacity m = 0)) as [E|]; [|pose proof (usable_lt (mcapacity m)); lia].
        rewrite E in *. unfold usable_of in *. cbn in *. lia. }
      destruct (rehash_spec n (mdata m) H4 (replicate n None)) as (s' & -> & Hl' & R' & P'); try done.
      + by rewrite replicate_length.
      + apply wf_forall, I.
      + rewrite ents_replicate, app_nil_r. apply uniq_nodup, I.
      + rewrite ents_replicate. cbn. lia.
      + cbn [mbind res_bind]. eexists. split; [done|]. rewrite ents_replicate, app_nil_r in P'.
        split; [|cbn; split; [done|split; [done|lia]]].
        split; cbn [mdata mcapacity mlength musable mshift]; try done.
        * by right.
        * rewrite P'. apply I.
        * lia.
        * apply wf_forall. rewrite P'. apply wf_forall, I.
        * apply uniq_nodup. rewrite P'. apply uniq_nodup, I.
    - assert (mlength m = 0) as E0.
      { unfold usable_of in *. rewrite (Nat.div_small (mcapacity m) 4) in Eu by lia. lia. }
      pose proof (minv_empty_ents m I E0) as E. rewrite rehash_nones by done. cbn [mbind res_bind].
      eexists. split; [done|]. split; [apply minv_fresh; [done|by right|lia]|].
      cbn. rewrite ents_replicate, E. split; [done|]. split; [done|lia].
  Qed.

  Lemma map_grow_ok m : minv m ->
    exists m', map_grow m = Ok (m', []) /\ minv m' /\ ents (mdata m') ≡ₚ ents (mdata m) /\
      mlength m' = mlength m /\ musable m < musable m' /\ (mpow m -> mpow m').
  Proof.
    intros I. unfold map_grow. pose proof (mi_cap m I) as Hc1.
    set (n := match mcapacity m with 0 => 32 | c => 2 * c end).
    assert (n <> 1 /\ mcapacity m < n) as [Hn Hgt] by (subst n; destruct (mcapacity m) as [|[|c]]; lia).
    destruct (map_reserve_ok m n I Hn) as (m' & -> & I' & P & Hl & Ec). exists m'.
    rewrite Nat.max_r in Ec by lia.
    split; [done|]. split; [done|]. split; [done|]. split; [done|]. split.
    - rewrite (mi_usable m I), (mi_usable m' I'), Ec. subst n. destruct (mcapacity m) as [|c] eqn:Em; [cbn; lia|].
      apply usable_grow. lia.
    - intros Hp. unfold mpow. rewrite Ec. right. subst n. destruct Hp as [->|[k ->]]; [by exists 5|].
      pose proof (Nat.pow_nonzero 2 k ltac:(lia)). destruct (2 ^ k) as [|c] eqn:E; [lia|]. exists (S k). rewrite <- E. cbn. lia.
  Qed.

  Lemma fm_insert_rel s s' f k v ds : (forall p e, s !! p = Some (Some e) -> wf_entry e) ->
    uniq s -> (forall k v, (k, v) ∈ kvs (ents s) <-> f k = Some v) ->
    inserted s s' (mk_entry (hash k) k v) ds ->
    (forall k' v', (k', v') ∈ kvs (ents s') <-> fm_insert k v f k' = Some v') /\
    length (ents s') + length ds = S (length (ents s)) /\
    kvs ds ++ kvs (ents s') ≡ₚ (k, v) :: kvs (ents s) /\
    length ds = match f k with Some _ => 1 | None => 0 end.
  Proof.
    intros W U Hr Hins.
    assert (forall k' v', (k', v') ∈ kvs (ents s) <-> exists p e, s !! p = Some (Some e) /\ kv e = (k', v')) as Hel.
    { intros k' v'. unfold kvs. rewrite elem_of_list_fmap. split.
      - intros (e & E & He). apply ents_elem in He as [p Hp]. eauto.
      - intros (p & e & Hp & E). exists e. split; [done|]. apply ents_elem. eauto. }
    destruct Hins as [(-> & Hno & P)|(p & e & Hp & -> & Ek & P)].
    - assert (f k = None) as Ef.
      { destruct (f k) as [v0|] eqn:E; [|done]. exfalso. apply Hr, Hel in E as (q & e & Hq & E). injection E as E _. by apply (Hno q e Hq). }
      split; [|split; [|split]].
      + intros k' v'. unfold kvs, fm_insert. rewrite P. cbn. rewrite elem_of_cons. fold (kvs (ents s)). rewrite Hr.
        destruct (decide (k' = k)) as [->|N].
        * rewrite Ef. split; [intros [E|E]; [by injection E as ->|done]|intros E; injection E as ->; by left].
        * split; [intros [E|E]; [by injection E|done]|by right].
      + rewrite (Permutation_length P). cbn. lia.
      + unfold kvs. cbn. by rewrite P.
      + by rewrite Ef.
    - cbn in Ek.
      assert (f k = Some (evalue e)) as Ef. { apply Hr, Hel. exists p, e. split; [done|]. unfold kv. by rewrite Ek. }
      assert (e ∈ ents s) as He by (apply ents_elem; eauto).
      apply elem_of_Permutation in He as [rest Pr].
      assert (ents s' ≡ₚ mk_entry (hash k) k v :: rest) as P'.
      { apply (Permutation_cons_inv (a := e)). rewrite P, Pr. by apply Permutation_swap. }
      assert (forall e', e' ∈ rest -> ekey e' <> k) as Hrest.
      { intros e' He' E. apply uniq_nodup in U. rewrite Pr in U. cbn in U. apply NoDup_cons in U as [N _].
        apply N. rewrite Ek, <- E. by apply elem_of_list_fmap_1. }
      split; [|split; [|split]].
      + intros k' v'. unfold kvs, fm_insert. rewrite P'. cbn. rewrite elem_of_cons.
        specialize (Hr k' v'). unfold kvs in Hr. rewrite Pr in Hr. cbn in Hr. rewrite elem_of_cons in Hr.
        destruct (decide (k' = k)) as [->|N].
        * split; [intros [E|E]; [by injection E as ->|]|intros E; injection E as ->; by left].
          exfalso. apply elem_of_list_fmap in E as (e' & E & He'). injection E as E _. by apply (Hrest e' He').
        * rewrite <- Hr. split; [intros [E|E]; [by injection E|by right]|].
          intros [E|E]; [|by right]. exfalso. apply N. injection E as E _. congruence.
      + rewrite (Permutation_length P'), (Permutation_length Pr). cbn. lia.
      + unfold kvs. change (kv <$> [e]) with [kv e]. cbn [app]. change (kv e :: (kv <$> ents s')) with (kv <$> (e :: ents s')).
        by rewrite P.
      + by rewrite Ef.
  Qed.

  Lemma map_insert_ok m f k v : minv m -> mrel m f ->
    exists m' i ds, map_insert hash m k v = Ok (m', i, ds) /\ minv m' /\ mrel m' (fm_insert k v f) /\
      read_slot m' i = Ok v /\ (mpow m -> mpow m') /\
      kvs ds ++ map_iterate m' ≡ₚ (k, v) :: map_iterate m /\
      mlength m' = S (mlength m) /\
      length ds = match f k with Some _ => 1 | None => 0 end.
  Proof.
    intros I Hr. unfold map_insert.
    assert (exists m1, (if map_full m then map_grow m else Ok (m, [])) = Ok (m1, []) /\ minv m1 /\
      ents (mdata m1) ≡ₚ ents (mdata m) /\ mlength m1 = mlength m /\ mlength m1 < musable m1 /\ (mpow m -> mpow m1))
      as (m1 & -> & I1 & P1 & L1 & U1 & Hp1).
    { unfold map_full. destruct (Nat.eqb_spec (mlength m) (musable m)) as [E|N].
      - destruct (map_grow_ok m I) as (m' & -> & I' & P & Hl & Hu & Hp). exists m'. split; [done|]. split; [done|]. split; [done|]. split; [done|]. split; [lia|done].
      - exists m. pose proof (mi_load m I). split; [done|]. split; [done|]. split; [done|]. split; [done|]. split; [lia|done]. }
    cbn [mbind res_bind app].
    assert (4 <= mcapacity m1) as Hc by (apply usable_4; rewrite <- (mi_usable m1 I1); lia).
    rewrite (minv_shift m1 I1 Hc).
    pose proof (mi_count m1 I1) as Hcnt.
    destruct (insert_slot_spec (mcapacity m1) (mdata m1) (mk_entry (hash k) k v)) as (s' & i' & ds & -> & Hl' & R' & Hins & Hi');
      [done|apply I1|apply I1|apply I1|apply I1|done| |].
    { pose proof (usable_lt (mcapacity m1) ltac:(lia)). pose proof (mi_usable m1 I1). lia. }
    cbn [mbind res_bind].
    destruct (inserted_inv _ _ _ _ Hins (mi_wf m1 I1) (mi_uniq m1 I1) eq_refl) as [W' U'].
    assert (forall k v, (k, v) ∈ kvs (ents (mdata m1)) <-> f k = Some v) as Hr1.
    { intros k0 v0. unfold kvs. rewrite P1. apply Hr. }
    destruct (fm_insert_rel _ s' f k v ds (mi_wf m1 I1) (mi_uniq m1 I1) Hr1 Hins) as (Hr' & Hlen & Pacc & Hds).
    eexists _, _, _. split; [done|]. split; [|split; [|split; [|split; [|split; [|split]]]]].
    - split; cbn [mdata mcapacity mlength musable mshift]; try done; try apply I1; try lia.
    - exact Hr'.
    - unfold read_slot. cbn [mdata]. rewrite (slot_at_ok _ _ _ Hi'). done.
    - intros Hp. exact (Hp1 Hp).
    - unfold map_iterate. cbn [mdata]. rewrite Pacc. unfold kvs. by rewrite P1.
    - cbn. lia.
    - done.
  Qed.

  Lemma map_try_erase_ok m f k : minv m -> mrel m f ->
    exists m' ds, map_try_erase hash m k = Ok (m', bool_decide (is_Some (f k)), ds) /\ minv m' /\
      mrel m' (fm_delete k f) /\ mcapacity m' = mcapacity m /\
      kvs ds ++ map_iterate m' ≡ₚ map_iterate m /\
      mlength m' + length ds = mlength m.
  Proof.
    intros I Hr. unfold map_try_erase, map_is_empty.
    assert (f k = None -> forall k' v', fm_delete k f k' = Some v' <-> f k' = Some v') as Hdel.
    { intros E k' v'. unfold fm_delete. destruct (decide (k' = k)) as [->|]; [by rewrite E|done]. }
    destruct (Nat.eqb_spec (mlength m) 0) as [E0|N0].
    { pose proof (minv_empty_ents m I E0) as E.
      destruct (find_cases m f k Hr) as [(p & e & Hp & _)|[_ Ef]].
      { assert (e ∈ ents (mdata m)) as He by (apply ents_elem; eauto). rewrite E in He. by apply elem_of_nil in He. }
      exists m, []. rewrite Ef, bool_decide_eq_false_2 by (intros [? ?]; done).
      split; [done|]. split; [done|]. split; [|done]. intros k' v'. rewrite (Hdel Ef). apply Hr. }
    pose proof (minv_cap4 m I ltac:(lia)) as Hc.
    rewrite (minv_shift m I Hc), home_ok by lia. cbn [mbind res_bind].
    destruct (find_cases m f k Hr) as [(p & e & Hp & <- & Ef)|[Hno Ef]].
    - assert (p < mcapacity m) as Hpc by (rewrite <- (mi_len m I); by eapply lookup_lt_Some).
      pose proof (dd_lt (mcapacity m) p e Hc Hpc (mi_wf m I p e Hp)).
      pose proof (wf_hm (mcapacity m) e ltac:(lia) (mi_wf m I p e Hp)) as Hh. rewrite (mi_wf m I p e Hp) in Hh.
      rewrite <- (start_ring (mcapacity m) (hm (mcapacity m) (hash (ekey e)))) by done.
      rewrite (erase_probe_present (mcapacity m) (mdata m) (ekey e) p e);
        [|done|apply I|apply I|apply I|apply I|done|done|lia|lia].
      cbn [mbind res_bind]. rewrite (slot_at_ok _ _ _ Hp). cbn [mbind res_bind].
      pose proof (mi_count m I) as Hcnt. pose proof (mi_load m I) as Hload.
      assert (length (ents (mdata m)) < length (mdata m)) as Hvac.
      { rewrite (mi_len m I). pose proof (usable_lt (mcapacity m) ltac:(lia)). pose proof (mi_usable m I). lia. }
      destruct (vacant_exists _ Hvac) as [z Hz].
      destruct (delete_spec (mcapacity m) (mdata m) p e z) as (s' & -> & Hl' & R' & P');
        [done|apply I|apply I|apply I|done|done|].
      cbn [mbind res_bind option_list app].
      rewrite Ef, bool_decide_eq_true_2 by eauto.
      pose proof (Permutation_length P') as HL. cbn in HL.
      assert (NoDup (ekey <$> (e :: ents s'))) as N. { rewrite P'. apply uniq_nodup, I. }
      cbn in N. apply NoDup_cons in N as [N1 N2].
      eexists _, _. split; [done|]. split; [|split; [|split; [|split]]].
      + split; cbn [mdata mcapacity mlength musable mshift]; try done; try apply I; try lia.
        * apply wf_forall. pose proof (mi_wf m I) as W. apply wf_forall in W. rewrite <- P' in W. by inversion W.
        * by apply uniq_nodup.
      + intros k' v'. unfold map_iterate, kvs. cbn [mdata].
        specialize (Hr k' v'). unfold map_iterate, kvs in Hr. rewrite <- P' in Hr. cbn in Hr. rewrite elem_of_cons in Hr.
        unfold fm_delete. destruct (decide (k' = ekey e)) as [->|N].
        * split; [|done]. intros Hin. exfalso. apply N1. apply elem_of_list_fmap in Hin as (e' & E & He').
          injection E as E _. rewrite E. by apply elem_of_list_fmap_1.
        * rewrite <- Hr. split; [by right|]. intros [E|E]; [|done]. exfalso. apply N. by injection E.
      + done.
      + unfold map_iterate, kvs. cbn [mdata]. rewrite <- P'. done.
      + cbn. lia.
    - rewrite (erase_probe_absent (mcapacity m) (mdata m) k); [|done|apply I|apply I|done| |lia|lia].
      2: { apply hm_lt; [lia|]. pose proof (hash_ok k). lia. }
      cbn [mbind res_bind]. exists m, []. rewrite Ef, bool_decide_eq_false_2 by (intros [? ?]; done).
      split; [done|]. split; [done|]. split; [|done]. intros k' v'. rewrite (Hdel Ef). apply Hr.
  Qed.

  Lemma map_assign_ok m f k v : minv m -> mrel m f ->
    match f k with
    | Some old => exists m', map_assign hash m k v = Ok (m', [old]) /\ minv m' /\ mrel m' (fm_insert k v f) /\
        mcapacity m' = mcapacity m /\ mlength m' = mlength m /\
        length (ents (mdata m')) = length (ents (mdata m)) /\
        (k, old) :: map_iterate m' ≡ₚ (k, v) :: map_iterate m
    | None => map_assign hash m k v = Die
    end.
  Proof.
    intros I Hr. unfold map_assign, map_is_empty.
    destruct (find_cases m f k Hr) as [(p & e & Hp & <- & Ef)|[Hno Ef]]; rewrite Ef.
    - assert (e ∈ ents (mdata m)) as He by (apply ents_elem; eauto).
      pose proof (mi_count m I) as Hcnt.
      destruct (Nat.eqb_spec (mlength m) 0) as [E0|N0]; [rewrite (minv_empty_ents m I E0) in He; by apply elem_of_nil in He|].
      rewrite (try_get_present m p e I Hp). cbn [mbind res_bind]. rewrite (slot_at_ok _ _ _ Hp). cbn [mbind res_bind].
      pose proof (mi_wf m I _ _ Hp) as We. unfold wf_entry in We.
      pose proof (minv_cap4 m I ltac:(lia)) as Hc.
      assert (p < mcapacity m) as Hpc by (rewrite <- (mi_len m I); by eapply lookup_lt_Some).
      set (x := mk_entry (ehash e) (ekey e) v).
      pose proof (ents_insert (mdata m) p (Some e) (Some x) Hp) as P. cbn [option_list app] in P.
      assert (inserted (mdata m) (<[p:=Some x]> (mdata m)) (mk_entry (hash (ekey e)) (ekey e) v) [e]) as Hins.
      { right. exists p, e. split; [done|]. split; [done|]. split; [done|]. rewrite <- We. exact P. }
      destruct (inserted_inv _ _ _ _ Hins (mi_wf m I) (mi_uniq m I) eq_refl) as [W' U'].
      destruct (fm_insert_rel _ _ f (ekey e) v [e] (mi_wf m I) (mi_uniq m I) Hr Hins) as (Hr' & Hlen & Pacc & _).
      cbn [length] in Hlen.
      eexists. split; [done|]. split; [|split; [|split; [|split; [|split]]]]; try done.
      + split; cbn [mdata mcapacity mlength musable mshift]; try done; try apply I.
        * rewrite insert_length. apply I.
        * lia.
        * apply rh_place; [done|apply I|done|apply I| |].
          -- rewrite (dib_some _ _ _ _ Hp). done.
          -- intros q Hq E. pose proof (mi_rh m I q Hq) as R. rewrite E, (dib_some _ _ _ _ Hp) in R.
             change (dd (mcapacity m) p x) with (dd (mcapacity m) p e). lia.
      + cbn [mdata]. lia.
    - destruct (Nat.eqb_spec (mlength m) 0) as [E0|N0]; [done|].
      rewrite (try_get_absent m k I) by (done || lia). done.
  Qed.

  Lemma map_clone_ok m : minv m -> mpow m ->
    minv (map_clone hash m) /\ mdata (map_clone hash m) = mdata m /\ mlength (map_clone hash m) = mlength m /\
    mcapacity (map_clone hash m) = mcapacity m.
  Proof.
    intros I Hp. unfold map_clone, map_with_capacity. cbn [mdata mcapacity mlength musable mshift].
    rewrite (next_pow2_fix _ Hp).
    assert (clone_slot hash <$> mdata m = mdata m) as E.
    { apply list_eq. intros i. rewrite list_lookup_fmap.
      destruct (mdata m !! i) as [[e|]|] eqn:Ei; [|done..]. cbn. pose proof (mi_wf m I _ _ Ei) as We. unfold wf_entry in We.
      rewrite <- We. by destruct e. }
    rewrite E, drop_ge, app_nil_r by (by rewrite replicate_length).
    split; [|done]. split; cbn [mdata mcapacity mlength musable mshift]; try apply I.
    - by right.
    - done.
    - rewrite <- (mi_usable m I). apply I.
  Qed.

  Definition op_ok m (o : map_op K V) : Prop :=
    o <> MReserve 1 /\ (o = MReplaceByClone -> mpow m).

  Lemma map_step_ok m f o : minv m -> mrel m f -> op_ok m o ->
    match fm_next f o with
    | Some f' => exists m' out ds, map_step hash m o = Ok (m', out, ds) /\ minv m' /\ mrel m' f' /\
        fm_answer f o out /\
        (mpow m -> (forall n, o = MReserve n -> n = 0 \/ is_pow2 n) -> mpow m') /\
        (o <> MReplaceByClone -> ds ++ map_iterate m' ≡ₚ fm_create f o ++ map_iterate m) /\
        (forall acc, mlength m = length (map_iterate m) + acc ->
           mlength m' = length (map_iterate m') + fm_reinsert f acc o) /\
        (o = MLength -> out = ONat (mlength m)) /\ (o = MEmpty -> out = OBool (map_is_empty m))
    | None => map_step hash m o = Die
    end.
  Proof.
    intros I Hr [Hres Hcl].
    assert (forall m1 m2, map_iterate m1 ≡ₚ map_iterate m2 -> forall f, mrel m2 f -> mrel m1 f) as Hperm.
    { intros m1 m2 P f0 H k v. rewrite P. apply H. }
    assert (forall s1 s2 : slots, ents s1 ≡ₚ ents s2 -> kvs (ents s1) ≡ₚ kvs (ents s2)) as Hkvs.
    { intros s1 s2 P. unfold kvs. by rewrite P. }
    destruct o as [k v|k v|k d|k|k|k|k|k| |n| | | | |]; cbn [fm_next map_step fm_create fm_reinsert].
    - destruct (map_insert_ok m f k v I Hr) as (m' & i & ds & -> & I' & Hr' & Hrd & Hp & Pacc & Hl & Hds).
      cbn [mbind res_bind]. rewrite Hrd. cbn [mbind res_bind]. eexists _, _, _. split; [done|]. split; [done|]. split; [done|].
      split; [done|]. split; [intros; by apply Hp|]. split; [intros _; by rewrite Pacc|]. split; [|done].
      intros acc Ha. pose proof (Permutation_length Pacc) as HL. rewrite app_length in HL. unfold kvs in HL. rewrite fmap_length in HL.
      cbn [length] in HL. rewrite Hl. destruct (f k); lia.
    - pose proof (map_assign_ok m f k v I Hr) as H. destruct (f k) as [old|] eqn:Ef.
      + destruct H as (m' & -> & I' & Hr' & Ec & El & Een & Pacc). cbn [mbind res_bind].
        eexists _, _, _. split; [done|]. split; [done|]. split; [done|]. split; [done|].
        split; [intros Hp _; unfold mpow; by rewrite Ec|]. split; [intros _; exact Pacc|]. split; [|done].
        intros acc Ha. unfold map_iterate, kvs in *. rewrite fmap_length in *. lia.
      + rewrite H. done.
    - unfold map_get_or_insert. rewrite (map_try_get_ok m f k I Hr). cbn [mbind res_bind].
      destruct (f k) as [old|] eqn:Ef.
      + eexists _, _, _. split; [done|]. split; [done|]. split; [done|]. cbn. rewrite Ef. done.
      + destruct (map_insert_ok m f k d I Hr) as (m' & i & ds & -> & I' & Hr' & Hrd & Hp & Pacc & Hl & Hds).
        cbn [mbind res_bind]. unfold read_slot in Hrd.
        destruct (slot_at (mdata m') i) as [[e|]| | |]; try done. cbn in Hrd. injection Hrd as Hv. cbn [mbind res_bind]. rewrite Hv.
        eexists _, _, _. split; [done|]. split; [done|]. split; [done|].
        split; [cbn; by rewrite Ef|]. split; [intros; by apply Hp|]. split; [intros _; by rewrite Pacc|]. split; [|done].
        intros acc Ha. pose proof (Permutation_length Pacc) as HL. rewrite app_length in HL. unfold kvs in HL. rewrite fmap_length in HL.
        cbn [length] in HL. rewrite Hl, Ef in *. lia.
    - destruct (map_try_erase_ok m f k I Hr) as (m' & ds & -> & I' & Hr' & Ec & Pacc & El). cbn [mbind res_bind].
      eexists _, _, _. split; [done|]. split; [done|]. split; [done|]. split; [done|].
      split; [intros Hp _; unfold mpow; by rewrite Ec|]. split; [intros _; exact Pacc|]. split; [|done].
      intros acc Ha. pose proof (Permutation_length Pacc) as HL. rewrite app_length in HL. unfold kvs in HL. rewrite fmap_length in HL. lia.
    - unfold map_erase. destruct (map_try_erase_ok m f k I Hr) as (m' & ds & -> & I' & Hr' & Ec & Pacc & El). cbn [mbind res_bind].
      destruct (f k) as [old|] eqn:Ef; cbn [bool_decide is_Some]; [|done].
      rewrite bool_decide_eq_true_2 by eauto. cbn [mbind res_bind].
      eexists _, _, _. split; [done|]. split; [done|]. split; [done|]. split; [done|].
      split; [intros Hp _; unfold mpow; by rewrite Ec|]. split; [intros _; exact Pacc|]. split; [|done].
      intros acc Ha. pose proof (Permutation_length Pacc) as HL. rewrite app_length in HL. unfold kvs in HL. rewrite fmap_length in HL. lia.
    - rewrite (map_try_get_ok m f k I Hr). cbn [mbind res_bind]. eexists _, _, _. split; [done|]. done.
    - unfold map_get. rewrite (map_try_get_ok m f k I Hr). cbn [mbind res_bind]. destruct (f k) as [old|] eqn:Ef; [|done].
      cbn [mbind res_bind]. eexists _, _, _. split; [done|]. split; [done|]. split; [done|]. cbn. rewrite Ef. done.
    - unfold map_contains. rewrite (map_try_get_ok m f k I Hr). cbn [mbind res_bind]. eexists _, _, _. split; [done|].
      split; [done|]. split; [done|]. split; [|done]. cbn. destruct (f k); [by rewrite bool_decide_eq_true_2|].
      rewrite bool_decide_eq_false_2; [done|]. by intros [? ?].
    - cbn [map_clear]. eexists _, _, _. split; [done|]. rewrite (mi_len m I), (mi_usable m I).
      assert (map_iterate (K:=K) (V:=V) (mk_map (replicate (mcapacity m) None) (mcapacity m) 0 (usable_of (mcapacity m)) (mshift m)) = []) as E.
      { unfold map_iterate. cbn [mdata]. by rewrite ents_replicate. }
      rewrite E. split; [apply minv_fresh; [apply I|apply I|lia]|].
      split; [intros k v; rewrite E; split; [intros H; by apply elem_of_nil in H|done]|].
      split; [done|]. split; [done|]. split; [intros _; by rewrite app_nil_r|]. done.
    - destruct (map_reserve_ok m n I) as (m' & -> & I' & P & El & Ec); [congruence|]. cbn [mbind res_bind].
      assert (map_iterate m' ≡ₚ map_iterate m) as P' by by apply Hkvs.
      eexists _, _, _. split; [done|]. split; [done|]. split; [by eapply Hperm|]. split; [done|].
      split. { intros Hp Hn. unfold mpow. rewrite Ec. destruct (Nat.max_spec (mcapacity m) n) as [[_ ->]|[_ ->]]; [by apply Hn|done]. }
      split; [intros _; exact P'|]. split; [|done]. intros acc Ha. rewrite El, Ha. by rewrite (Permutation_length P').
    - destruct (map_grow_ok m I) as (m' & -> & I' & P & El & Ec & Hp). cbn [mbind res_bind].
      assert (map_iterate m' ≡ₚ map_iterate m) as P' by by apply Hkvs.
      eexists _, _, _. split; [done|]. split; [done|]. split; [by eapply Hperm|]. split; [done|].
      split; [intros; by apply Hp|].
      split; [intros _; exact P'|]. split; [|done]. intros acc Ha. rewrite El, Ha. by rewrite (Permutation_length P').
    - cbn [map_destroy]. destruct (map_clone_ok m I (Hcl eq_refl)) as (I' & Ed & El & Ec).
      eexists _, _, _. split; [done|]. split; [done|]. split; [intros k v; unfold map_iterate; rewrite Ed; apply Hr|]. split; [done|].
      split; [intros Hp _; unfold mpow; by rewrite Ec|]. split; [done|]. split; [|done].
      intros acc Ha. unfold map_iterate. rewrite Ed, El. done.
    - eexists _, _, _. split; [done|]. split; [done|]. split; [done|]. split; [by eexists|]. done.
    - eexists _, _, _. split; [done|]. split; [done|]. split; [done|]. split; [by eexists|]. done.
    - eexists _, _, _. split; [done|]. split; [done|]. split; [done|]. split; [|done].
      eexists. split; [done|]. split; [apply iterate_nodup, I|done].
  Qed.

  (** Histories. *)
  Definition clone_ok m (os : list (map_op K V)) : Prop :=
    MReplaceByClone ∈ os -> mpow m /\ forall n, MReserve n ∈ os -> n = 0 \/ is_pow2 n.

  Ltac inlist := first [by apply elem_of_list_here | by apply elem_of_list_further].
  Lemma map_run_ok os : forall m f, minv m -> mrel m f -> no_capacity_1 os -> clone_ok m os ->
    match fm_final f os with
    | Some f' => exists m' outs ds, map_run hash m os = Ok (m', outs, ds) /\ minv m' /\ mrel m' f' /\
        fm_answers f os outs /\
        (MReplaceByClone ∉ os -> ds ++ map_iterate m' ≡ₚ fm_created f os ++ map_iterate m) /\
        (forall acc, mlength m = length (map_iterate m) + acc ->
           mlength m' = length (map_iterate m') + fm_reinserted f acc os)
    | None => map_run hash m os = Die
    end.
  Proof.
    induction os as [|o os IH]; intros m f I Hr H1 Hcl; cbn [fm_final map_run].
    { eexists _, _, _. split; [done|]. done. }
    assert (no_capacity_1 os) as H1'. { intros Hin. apply H1. inlist. }
    pose proof (map_step_ok m f o I Hr) as H.
    assert (op_ok m o) as Hop.
    { split; [intros ->; apply H1; inlist|]. intros ->. destruct Hcl as [? _]; [inlist|done]. }
    specialize (H Hop). destruct (fm_next f o) as [f'|] eqn:En; cbn [mbind option_bind].
    - destruct H as (m1 & out & ds1 & -> & I1 & Hr1 & Ha & Hp & Pacc & Hacc & _). cbn [mbind res_bind].
      assert (clone_ok m1 os) as Hcl1.
      { intros Hin. destruct Hcl as [Hpm Hn]; [inlist|]. split; [|intros n Hn'; apply Hn; inlist].
        apply Hp; [done|]. intros n ->. apply Hn. inlist. }
      specialize (IH m1 f' I1 Hr1 H1' Hcl1). destruct (fm_final f' os) as [f2|].
      + destruct IH as (m2 & outs & ds2 & -> & I2 & Hr2 & Ha2 & Pacc2 & Hacc2). cbn [mbind res_bind].
        eexists _, _, _. split; [done|]. split; [done|]. split; [done|]. split; [|split].
        * cbn. rewrite En. done.
        * intros Hno. cbn [fm_created]. rewrite En. rewrite <- !app_assoc.
          rewrite Pacc2 by (intros Hin; apply Hno; inlist).
          rewrite (Permutation_app_swap_app ds1), (Permutation_app_swap_app (fm_create f o)). rewrite Pacc; [done|]. intros ->. apply Hno. inlist.
        * intros acc E. cbn [fm_reinserted]. rewrite En. apply Hacc2. by apply Hacc.
      + rewrite IH. done.
    - rewrite H. done.
  Qed.
End map.
