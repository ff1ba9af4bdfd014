(** Proofs about HeapModel. *)
From Verif Require Import Slots VecModel VecProofs MathSpec HeapModel HeapSpec.

Section heap.
  Context {T : Type} (ltb : T -> T -> bool).
  Implicit Types (l : list T) (m spare : mem T) (h : heap T).

  Definition child (i j : nat) : Prop := i = 2 * j + 1 \/ i = 2 * j + 2.

  Lemma child_parent i : 0 < i -> child i ((i - 1) / 2).
  Proof.
    intros Hi. unfold child. pose proof (Nat.div_mod_eq (i - 1) 2).
    pose proof (Nat.mod_upper_bound (i - 1) 2). lia.
  Qed.

  Definition heap_ordered l : Prop := forall i j x p,
    child i j -> l !! i = Some x -> l !! j = Some p -> ltb x p = false.

  Definition up_inv l k : Prop :=
    (forall i j x p, child i j -> i <> k -> l !! i = Some x -> l !! j = Some p -> ltb x p = false) /\
    (forall i j x p, child k j -> child i k -> l !! i = Some x -> l !! j = Some p -> ltb x p = false).
  Definition down_inv l k : Prop :=
    (forall i j x p, child i j -> j <> k -> l !! i = Some x -> l !! j = Some p -> ltb x p = false) /\
    (forall i j x p, child k j -> child i k -> l !! i = Some x -> l !! j = Some p -> ltb x p = false).

  Lemma swap_lookup l a b x y i : a <> b -> l !! a = Some x -> l !! b = Some y ->
    <[b:=x]> (<[a:=y]> l) !! i = if decide (i = b) then Some x else if decide (i = a) then Some y else l !! i.
  Proof.
    intros Hab Ha Hb. apply lookup_lt_Some in Ha as La, Hb as Lb.
    destruct (decide (i = b)) as [->|]; [apply list_lookup_insert; by rewrite insert_length|].
    rewrite list_lookup_insert_ne by done.
    destruct (decide (i = a)) as [->|]; [by apply list_lookup_insert|].
    by rewrite list_lookup_insert_ne by done.
  Qed.

  Lemma swap_perm l a b x y : a <> b -> l !! a = Some x -> l !! b = Some y ->
    <[b:=x]> (<[a:=y]> l) ≡ₚ l.
  Proof.
    intros Hab Ha Hb. apply lookup_lt_Some in Ha as La, Hb as Lb.
    assert (forall (k : list T) i u v, k !! i = Some u -> u :: <[i:=v]> k ≡ₚ v :: k) as Hins.
    { intros k i u v Hi. rewrite <- (take_drop_middle k i u Hi) at 2.
      rewrite insert_take_drop by (by eapply lookup_lt_Some).
      rewrite <- !Permutation_middle. constructor. }
    apply (Permutation_cons_inv (a := y)). 
    rewrite (Hins (<[a:=y]> l) b y x) by (by rewrite list_lookup_insert_ne).
    by rewrite (Hins l a x y).
  Qed.

  Lemma lives_lookup l spare i x : l !! i = Some x -> ((Live <$> l) ++ spare) !! i = Some (Live x).
  Proof. intros Hx. apply lookup_app_l_Some. by rewrite list_lookup_fmap, Hx. Qed.

  Lemma m_place_husk m i x : m !! i = Some Husk -> m_place m i x = Ok (<[i:=Live x]> m).
  Proof. unfold m_place. by intros ->. Qed.

  Lemma heap_swap_spec l spare a b x y : a <> b -> l !! a = Some x -> l !! b = Some y ->
    heap_swap ((Live <$> l) ++ spare) a b = Ok ((Live <$> <[b:=x]> (<[a:=y]> l)) ++ spare).
  Proof.
    intros Hab Ha Hb. apply lookup_lt_Some in Ha as La, Hb as Lb.
    assert (forall (i : nat) s, i < length l -> <[i:=s]> ((Live <$> l) ++ spare) = <[i:=s]> (Live <$> l) ++ spare) as Hi.
    { intros i s Hi. apply insert_app_l. by rewrite fmap_length. }
    unfold heap_swap. rewrite (m_take_ok _ _ x) by (by apply lives_lookup). cbn [mbind res_bind].
    rewrite (m_take_ok _ _ y) by (rewrite list_lookup_insert_ne by done; by apply lives_lookup).
    cbn [mbind res_bind]. set (m := (Live <$> l) ++ spare).
    assert (length l <= length m) as Hlen by (unfold m; rewrite app_length, fmap_length; lia).
    assert (<[b:=Husk]> (<[a:=Husk]> m) !! a = Some Husk) as E1.
    { rewrite list_lookup_insert_ne by done. apply list_lookup_insert. lia. }
    rewrite (m_place_husk _ _ _ E1). cbn [mbind res_bind].
    assert (<[a:=Live y]> (<[b:=Husk]> (<[a:=Husk]> m)) !! b = Some Husk) as E2.
    { rewrite list_lookup_insert_ne by done. apply list_lookup_insert. rewrite insert_length. lia. }
    rewrite (m_place_husk _ _ _ E2). f_equal.
    rewrite (list_insert_commute _ a b) by done. rewrite list_insert_insert.
    rewrite list_insert_insert. unfold m. rewrite Hi by done. rewrite insert_app_l by (by rewrite insert_length, fmap_length).
    by rewrite !list_fmap_insert.
  Qed.

  Lemma reheap_up_spec fuel : forall l idx spare, idx < length l -> idx <= fuel ->
    exists l', reheap_up ltb fuel ((Live <$> l) ++ spare) idx = Ok ((Live <$> l') ++ spare) /\ l' ≡ₚ l /\
      (strict_weak_order ltb -> up_inv l idx -> heap_ordered l').
  Proof.
    induction fuel as [|fuel IH]; intros l idx spare Hidx Hf.
    { assert (idx = 0) as -> by lia. exists l. cbn. split; [done|]. split; [done|].
      intros _ [H1 _] i j x p Hc. apply (H1 i j); [done|unfold child in *; lia]. }
    cbn [reheap_up]. destruct (Nat.eqb_spec idx 0) as [->|Hne].
    { exists l. split; [done|]. split; [done|].
      intros _ [H1 _] i j x p Hc. apply (H1 i j); [done|unfold child in *; lia]. }
    pose proof (child_parent idx ltac:(lia)) as Hc. set (par := (idx - 1) / 2) in *.
    assert (par < idx) as Hlt by (unfold child in Hc; lia).
    destruct (lookup_lt_is_Some_2 l idx) as [e He]; [done|].
    destruct (lookup_lt_is_Some_2 l par) as [p Hp]; [lia|].
    cbv zeta. rewrite (m_read_ok _ idx e) by (by apply lives_lookup). cbn [mbind res_bind].
    rewrite (m_read_ok _ par p) by (by apply lives_lookup). cbn [mbind res_bind].
    destruct (ltb e p) eqn:Elt.
    - rewrite (heap_swap_spec l spare idx par e p) by (done || lia). cbn [mbind res_bind].
      destruct (IH (<[par:=e]> (<[idx:=p]> l)) par spare) as (l' & E & P & O).
      + rewrite !insert_length. lia.
      + lia.
      + exists l'. split; [done|]. split.
        { rewrite P. apply swap_perm; done || lia. }
        intros W [H1 H2]. apply O; [done|]. clear O IH E P.
        assert (forall i, <[par:=e]> (<[idx:=p]> l) !! i =
          if decide (i = par) then Some e else if decide (i = idx) then Some p else l !! i) as Hsw.
        { intros i. apply swap_lookup; done || lia. }
        assert (ltb p e = false) as Epe.
        { destruct (ltb p e) eqn:E; [|done]. pose proof (swo_trans _ W _ _ _ Elt E) as C.
          by rewrite (swo_irrefl _ W) in C. }
        split; intros i j x q Hij; rewrite !Hsw.
        * intros Hi Hx Hq. destruct (decide (i = par)); [done|].
          destruct (decide (i = idx)) as [->|Hi2].
          -- injection Hx as <-. assert (j = par) as -> by (unfold child in *; lia).
             rewrite decide_True in Hq by done. by injection Hq as <-.
          -- destruct (decide (j = par)) as [->|Hj].
             ++ injection Hq as <-. pose proof (H1 i par x p Hij ltac:(done) Hx Hp) as Hxp.
                destruct (ltb x e) eqn:E; [|done]. pose proof (swo_trans _ W _ _ _ E Elt). congruence.
             ++ destruct (decide (j = idx)) as [->|Hj2].
                ** injection Hq as <-. by apply (H2 i par x p).
                ** by apply (H1 i j x q).
        * intros Hip Hx Hq. destruct (decide (j = par)); [unfold child in *; lia|].
          destruct (decide (j = idx)); [unfold child in *; lia|].
          destruct (decide (i = par)); [unfold child in *; lia|].
          assert (ltb p q = false) as Hpq by (apply (H1 par j p q Hij); [lia|done|done]).
          destruct (decide (i = idx)) as [->|Hi2].
          -- by injection Hx as <-.
          -- apply (swo_negtrans _ W _ p); [|done]. by apply (H1 i par x p Hip).
    - exists l. split; [done|]. split; [done|]. intros _ [H1 H2] i j x q Hij Hx Hq.
      destruct (decide (i = idx)) as [->|]; [|by apply (H1 i j)].
      assert (j = par) as -> by (unfold child in *; lia). congruence.
  Qed.

  (** One swap of [k] with its child [c], when [c] is the lesser child. *)
  Lemma down_step l k c e p : strict_weak_order ltb -> child c k -> l !! c = Some e -> l !! k = Some p ->
    ltb e p = true ->
    (forall i x, child i k -> l !! i = Some x -> ltb x e = false) ->
    down_inv l k -> down_inv (<[c:=p]> (<[k:=e]> l)) c.
  Proof.
    intros W Hc He Hp Elt Hmin [H1 H2].
    assert (k <> c) by (unfold child in *; lia).
    assert (forall i, <[c:=p]> (<[k:=e]> l) !! i =
      if decide (i = c) then Some p else if decide (i = k) then Some e else l !! i) as Hsw.
    { intros i. by apply swap_lookup. }
    split; intros i j x q Hij; rewrite !Hsw.
    - intros Hj Hx Hq. rewrite (decide_False (P := j = c)) in Hq by done.
      destruct (decide (i = c)) as [->|Hi].
      + injection Hx as <-. assert (j = k) as -> by (unfold child in *; lia).
        rewrite decide_True in Hq by done. injection Hq as <-.
        destruct (ltb p e) eqn:E; [|done]. pose proof (swo_trans _ W _ _ _ Elt E) as C.
        by rewrite (swo_irrefl _ W) in C.
      + destruct (decide (i = k)) as [->|Hi2].
        * injection Hx as <-. destruct (decide (j = k)); [unfold child in *; lia|]. by apply (H2 c j e q).
        * destruct (decide (j = k)) as [->|Hj2].
          -- injection Hq as <-. by apply (Hmin i).
          -- by apply (H1 i j).
    - intros Hic Hx Hq. assert (j = k) as -> by (unfold child in *; lia).
      rewrite decide_False, decide_True in Hq by (done || lia). injection Hq as <-.
      destruct (decide (i = c)); [unfold child in *; lia|]. destruct (decide (i = k)); [unfold child in *; lia|].
      apply (H1 i c x e Hic); [lia|done|done].
  Qed.

  Lemma reheap_down_spec fuel : forall l idx spare, idx < length l -> length l <= fuel + idx ->
    exists l', reheap_down ltb fuel ((Live <$> l) ++ spare) (length l) idx = Ok ((Live <$> l') ++ spare) /\ l' ≡ₚ l /\
      (strict_weak_order ltb -> down_inv l idx -> heap_ordered l').
  Proof.
    induction fuel as [|fuel IH]; intros l idx spare Hidx Hf; [lia|].
    cbn [reheap_down]. cbv zeta. destruct (lookup_lt_is_Some_2 l idx) as [p Hp]; [done|].
    rewrite (m_read_ok _ idx p) by (by apply lives_lookup). cbn [mbind res_bind].
    assert (strict_weak_order ltb -> down_inv l idx ->
       (forall i x, child i idx -> l !! i = Some x -> ltb x p = false) -> heap_ordered l) as Hstop.
    { intros _ [H1 H2] Hk i j x q Hij Hx Hq. destruct (decide (j = idx)) as [->|]; [|by apply (H1 i j)].
      rewrite Hp in Hq. injection Hq as <-. by apply (Hk i). }
    destruct (Nat.ltb_spec (idx * 2 + 1 + 1) (length l)) as [Hr|Hr].
    - destruct (lookup_lt_is_Some_2 l (idx * 2 + 1)) as [lc Hl]; [lia|].
      destruct (lookup_lt_is_Some_2 l (idx * 2 + 1 + 1)) as [rc Hrc]; [lia|].
      rewrite (m_read_ok _ (idx * 2 + 1) lc) by (by apply lives_lookup). cbn [mbind res_bind].
      rewrite (m_read_ok _ (idx * 2 + 1 + 1) rc) by (by apply lives_lookup). cbn [mbind res_bind].
      assert (forall i x, child i idx -> l !! i = Some x ->
        (i = idx * 2 + 1 /\ x = lc) \/ (i = idx * 2 + 1 + 1 /\ x = rc)) as Hch.
      { intros i x [->| ->] Hx.
        - left. split; [lia|]. replace (2 * idx + 1) with (idx * 2 + 1) in Hx by lia. congruence.
        - right. split; [lia|]. replace (2 * idx + 2) with (idx * 2 + 1 + 1) in Hx by lia. congruence. }
      destruct (ltb lc p && negb (ltb rc lc)) eqn:B1; [|destruct (ltb rc p && negb (ltb lc rc)) eqn:B2].
      + apply andb_true_iff in B1 as [B1 B1']. apply negb_true_iff in B1'.
        rewrite (heap_swap_spec l spare idx (idx * 2 + 1) p lc) by (done || lia). cbn [mbind res_bind].
        destruct (IH (<[idx * 2 + 1:=p]> (<[idx:=lc]> l)) (idx * 2 + 1) spare) as (l' & E & P & O);
          [rewrite !insert_length; lia..|]. rewrite !insert_length in E.
        exists l'. split; [done|]. split; [rewrite P; apply swap_perm; done || lia|].
        intros W D. apply O; [done|]. apply down_step; try done; [unfold child; lia|].
        intros i x Hc Hx. destruct (Hch i x Hc Hx) as [[-> ->]|[-> ->]]; [apply (swo_irrefl _ W)|done].
      + apply andb_true_iff in B2 as [B2 B2']. apply negb_true_iff in B2'.
        rewrite (heap_swap_spec l spare idx (idx * 2 + 1 + 1) p rc) by (done || lia). cbn [mbind res_bind].
        destruct (IH (<[idx * 2 + 1 + 1:=p]> (<[idx:=rc]> l)) (idx * 2 + 1 + 1) spare) as (l' & E & P & O);
          [rewrite !insert_length; lia..|]. rewrite !insert_length in E.
        exists l'. split; [done|]. split; [rewrite P; apply swap_perm; done || lia|].
        intros W D. apply O; [done|]. apply down_step; try done; [unfold child; lia|].
        intros i x Hc Hx. destruct (Hch i x Hc Hx) as [[-> ->]|[-> ->]]; [done|apply (swo_irrefl _ W)].
      + exists l. split; [done|]. split; [done|]. intros W D. apply Hstop; [done|done|].
        intros i x Hc Hx.
        assert (ltb lc p = false /\ ltb rc p = false) as [? ?].
        { destruct (ltb lc p) eqn:E1, (ltb rc p) eqn:E2; cbn in *; try done.
          - apply negb_false_iff in B1, B2. pose proof (swo_trans _ W _ _ _ B1 B2) as C.
            by rewrite (swo_irrefl _ W) in C.
          - apply negb_false_iff in B1. pose proof (swo_trans _ W _ _ _ B1 E1). congruence.
          - apply negb_false_iff in B2. pose proof (swo_trans _ W _ _ _ B2 E2). congruence. }
        by destruct (Hch i x Hc Hx) as [[-> ->]|[-> ->]].
    - destruct (Nat.ltb_spec (idx * 2 + 1) (length l)) as [Hl'|Hl'].
      + destruct (lookup_lt_is_Some_2 l (idx * 2 + 1)) as [lc Hl]; [lia|].
        rewrite (m_read_ok _ (idx * 2 + 1) lc) by (by apply lives_lookup). cbn [mbind res_bind].
        assert (forall i x, child i idx -> l !! i = Some x -> i = idx * 2 + 1 /\ x = lc) as Hch.
        { intros i x Hc Hx. apply lookup_lt_Some in Hx as Hi.
          assert (i = idx * 2 + 1) as -> by (unfold child in *; lia). split; [done|congruence]. }
        destruct (ltb lc p) eqn:B.
        * rewrite (heap_swap_spec l spare idx (idx * 2 + 1) p lc) by (done || lia).
          eexists. split; [reflexivity|]. split; [apply swap_perm; done || lia|].
          intros W D. pose proof (down_step l idx (idx * 2 + 1) lc p W) as Hd.
          destruct Hd as [H1 H2]; try done; [unfold child; lia| |].
          { intros i x Hc Hx. destruct (Hch i x Hc Hx) as [-> ->]. apply (swo_irrefl _ W). }
          intros i j x q Hij Hx Hq. apply (H1 i j); try done. intros ->.
          apply lookup_lt_Some in Hx. rewrite !insert_length in Hx. unfold child in *. lia.
        * exists l. split; [done|]. split; [done|]. intros W D. apply Hstop; [done|done|].
          intros i x Hc Hx. by destruct (Hch i x Hc Hx) as [-> ->].
      + exists l. split; [done|]. split; [done|]. intros W D. apply Hstop; [done|done|].
        intros i x Hc Hx. apply lookup_lt_Some in Hx. unfold child in *. lia.
  Qed.

  (** The heap holds exactly the elements [l], in array order. *)
  Record hrep h l : Prop := {
    hr_spare : exists spare, hdata h = (Live <$> l) ++ spare /\ length l + length spare = hcapacity h /\
      Forall (fun s => is_live s = false) spare;
    hr_len : hlength h = length l }.

  Lemma hrep_mk l spare c : Forall (fun s => is_live s = false) spare -> length l + length spare = c ->
    hrep (mk_heap ((Live <$> l) ++ spare) (length l) c) l.
  Proof. intros. split; [|done]. exists spare. done. Qed.

  Lemma dead_replicate n s : is_live s = false -> Forall (fun s : slot T => is_live s = false) (replicate n s).
  Proof. intros. by apply Forall_replicate. Qed.

  Lemma hrep_empty c : hrep (heap_with_capacity c) [].
  Proof. apply (hrep_mk [] (m_alloc c)); [by apply dead_replicate|cbn; apply m_alloc_length]. Qed.

  Lemma m_free_dead m : Forall (fun s => is_live s = false) m -> m_free m = Ok tt.
  Proof.
    intros F. apply m_free_ok. intros i x Hx. rewrite Forall_lookup in F. by apply F in Hx.
  Qed.

  Lemma heap_reserve_spec h l n : hrep h l -> exists h', heap_reserve h n = Ok h' /\ hrep h' l /\
    hcapacity h' = Nat.max (hcapacity h) n.
  Proof.
    destruct h as [m len c]. intros [(spare & E & L & F) Hl]. cbn in *. subst m len.
    unfold heap_reserve. cbn [hcapacity hdata hlength]. destruct (Nat.leb_spec n c).
    { eexists. split; [reflexivity|]. split; [|cbn; lia]. by apply hrep_mk. }
    pose proof (move_loop_spec l [] spare [] (m_alloc (n - length l)) 0 eq_refl eq_refl) as Hm.
    cbn [app] in Hm. unfold m_alloc in *. rewrite <- replicate_add in Hm.
    replace (length l + (n - length l)) with n in Hm by lia. rewrite Hm. cbn [mbind res_bind].
    rewrite m_free_dead by (apply Forall_app; split; [by apply dead_replicate|done]). cbn [mbind res_bind].
    eexists. split; [reflexivity|]. split; [|cbn; lia]. apply hrep_mk; [by apply dead_replicate|].
    rewrite replicate_length. lia.
  Qed.

  Lemma heap_grow_spec h l : hrep h l -> exists h', heap_grow h = Ok h' /\ hrep h' l /\ hcapacity h < hcapacity h'.
  Proof.
    intros R. unfold heap_grow.
    destruct (heap_reserve_spec h l (match hcapacity h with 0 => 8 | c => 2 * c end) R) as (h' & E & R' & C).
    exists h'. split; [done|]. split; [done|]. rewrite C. destruct (hcapacity h); lia.
  Qed.

  Definition ok_order l : Prop := strict_weak_order ltb -> heap_ordered l.

  Lemma heap_push_spec h l x : hrep h l -> ok_order l ->
    exists h' l', heap_push ltb h x = Ok h' /\ hrep h' l' /\ l' ≡ₚ x :: l /\ ok_order l'.
  Proof.
    intros R O. unfold heap_push.
    assert (exists h1, (if heap_full h then heap_grow h else Ok h) = Ok h1 /\ hrep h1 l /\
      length l < hcapacity h1) as (h1 & -> & R1 & Hlt).
    { unfold heap_full. pose proof (hr_len _ _ R) as L. destruct (Nat.eqb_spec (hlength h) (hcapacity h)).
      - destruct (heap_grow_spec h l R) as (h' & E & R' & C). exists h'. split; [done|]. split; [done|]. lia.
      - exists h. split; [done|]. split; [done|]. destruct R as [(spare & _ & L' & _) _]. lia. }
    cbn [mbind res_bind]. clear h R. destruct h1 as [m len c]. destruct R1 as [(spare & E & L & F) Hl].
    cbn in *. subst m len. destruct spare as [|s spare]; [cbn in *; lia|].
    apply Forall_cons in F as [Hs F].
    assert (m_place ((Live <$> l) ++ s :: spare) (length l) x = Ok ((Live <$> l ++ [x]) ++ spare)) as ->.
    { unfold m_place. rewrite list_lookup_middle by (by rewrite fmap_length).
      rewrite insert_middle by (by rewrite fmap_length).
      rewrite fmap_app, <- app_assoc. cbn. by destruct s. }
    cbn [mbind res_bind].
    destruct (reheap_up_spec (length l) (l ++ [x]) (length l) spare) as (l' & E & P & O'); [rewrite app_length; cbn; lia|lia|].
    rewrite E. cbn [mbind res_bind]. exists (mk_heap ((Live <$> l') ++ spare) (S (length l)) c), l'. split; [reflexivity|].
    assert (length l' = S (length l)) as Ll by (rewrite P, app_length; cbn; lia).
    split; [|split].
    - rewrite <- Ll. apply hrep_mk; [done|]. cbn in L. lia.
    - rewrite P. symmetry. apply Permutation_cons_append.
    - intros W. apply O'; [done|]. specialize (O W). split.
      + intros i j y p Hij Hi Hy Hp. apply lookup_lt_Some in Hy as Hb. rewrite app_length in Hb. cbn in Hb.
        assert (j < length l) by (unfold child in *; lia).
        rewrite lookup_app_l in Hy, Hp by lia. by apply (O i j).
      + intros i j y p Hkj Hik Hy. apply lookup_lt_Some in Hy as Hb. rewrite app_length in Hb. cbn in Hb.
        unfold child in *. lia.
  Qed.

  Lemma heap_pop_spec h x l : hrep h (x :: l) -> ok_order (x :: l) ->
    exists h' l', heap_pop ltb h = Ok (h', [x]) /\ hrep h' l' /\ l' ≡ₚ l /\ ok_order l'.
  Proof.
    intros R O. destruct h as [m len c]. destruct R as [(spare & E & L & F) Hl]. cbn in *. subst m len.
    unfold heap_pop. cbn [hlength hdata hcapacity]. rewrite assert_lt by lia. cbn [mbind res_bind].
    rewrite (m_destroy_live _ _ x) by done. cbn [mbind res_bind]. cbv zeta.
    replace (S (length l) - 1) with (length l) by lia. cbn [insert list_insert].
    destruct l as [|v l0 _] using rev_ind.
    - cbn. exists (mk_heap (Raw :: spare) 0 c), []. split; [done|]. split; [|split; [done|]].
      + apply (hrep_mk [] (Raw :: spare)); [by constructor|cbn in *; lia].
      + intros _ i j ? ? ?. by rewrite lookup_nil.
    - rewrite app_length in *. cbn [length] in *. destruct (Nat.ltb_spec 0 (length l0 + 1)); [|lia].
      rewrite fmap_app, <- app_assoc. cbn [fmap list_fmap app].
      assert (forall s, (Raw :: (Live <$> l0) ++ s :: spare) = (Raw :: (Live <$> l0)) ++ s :: spare) as Ea by done.
      rewrite Ea. rewrite (m_take_ok _ _ v).
      2:{ rewrite list_lookup_middle; [done|]. cbn. rewrite fmap_length. lia. }
      cbn [mbind res_bind]. rewrite insert_middle by (cbn; rewrite fmap_length; lia).
      unfold m_place. cbn [lookup list_lookup app mbind res_bind insert list_insert].
      destruct (reheap_down_spec (length l0 + 1) (v :: l0) 0 (Husk :: spare)) as (l' & E & P & O'); [cbn; lia..|].
      cbn [length] in E. replace (S (length l0)) with (length l0 + 1) in E by lia.
      change (Live v :: (Live <$> l0) ++ Husk :: spare) with ((Live <$> v :: l0) ++ Husk :: spare).
      rewrite E. cbn [mbind res_bind]. eexists _, l'. split; [reflexivity|].
      assert (length l' = length l0 + 1) as Ll by (rewrite P; cbn; lia).
      split; [|split].
      + rewrite <- Ll. apply hrep_mk; [by constructor|]. cbn. lia.
      + rewrite P. apply Permutation_cons_append.
      + intros W. apply O'; [done|]. specialize (O W). split.
        * intros i j y p Hij Hj Hy Hp. destruct i as [|i]; [unfold child in *; lia|].
          destruct j as [|j]; [done|]. cbn in Hy, Hp. apply (O (S i) (S j)); [done|..]; cbn.
          -- by apply lookup_app_l_Some.
          -- by apply lookup_app_l_Some.
        * intros i j y p Hc. unfold child in Hc. lia.
  Qed.

  Lemma heap_destroy_loop_spec l spare :
    Forall (fun s => is_live s = false) spare ->
    exists m', destroy_loop ((Live <$> l) ++ spare) 0 (length l) = Ok (m', l) /\
      Forall (fun s => is_live s = false) m' /\ length m' = length l + length spare.
  Proof.
    intros F. eexists. split; [exact (destroy_loop_spec l [] spare 0 eq_refl)|].
    split; [cbn; apply Forall_app; split; [by apply dead_replicate|done]|].
    cbn. by rewrite app_length, replicate_length.
  Qed.

  Lemma heap_clear_spec h l : hrep h l -> exists h', heap_clear h = Ok (h', l) /\ hrep h' [].
  Proof.
    destruct h as [m len c]. intros [(spare & E & L & F) Hl]. cbn in *. subst m len.
    unfold heap_clear. cbn [hlength hdata hcapacity].
    destruct (heap_destroy_loop_spec l spare F) as (m' & -> & F' & L'). cbn [mbind res_bind].
    eexists. split; [reflexivity|]. apply (hrep_mk [] m'); [done|]. cbn. lia.
  Qed.

  Lemma heap_destroy_spec h l : hrep h l -> heap_destroy h = Ok (heap_empty, l).
  Proof.
    destruct h as [m len c]. intros [(spare & E & L & F) Hl]. cbn in *. subst m len.
    unfold heap_destroy. cbn [hlength hdata hcapacity].
    destruct (heap_destroy_loop_spec l spare F) as (m' & -> & F' & L'). cbn [mbind res_bind].
    rewrite m_free_dead by done. done.
  Qed.

  Lemma heap_clone_spec h l : hrep h l -> exists h', heap_clone h = Ok h' /\ hrep h' l.
  Proof.
    destruct h as [m len c]. intros [(spare & E & L & F) Hl]. cbn in *. subst m len.
    unfold heap_clone. cbn [hlength hdata hcapacity].
    pose proof (copy_loop_spec l [] spare [] (m_alloc (c - length l)) 0 eq_refl eq_refl) as Hm.
    cbn [app] in Hm. unfold m_alloc in *. rewrite <- replicate_add in Hm.
    replace (length l + (c - length l)) with c in Hm by lia. rewrite Hm. cbn [mbind res_bind].
    eexists. split; [reflexivity|]. apply hrep_mk; [by apply dead_replicate|]. rewrite replicate_length. lia.
  Qed.

  Lemma heap_iterate_spec h l : hrep h l -> heap_iterate h = Ok l.
  Proof.
    intros [(spare & E & L & F) Hl]. unfold heap_iterate. rewrite E, Hl.
    exact (read_loop_spec l [] spare 0 eq_refl).
  Qed.

  Lemma heap_top_spec h l : hrep h l -> heap_top h = match l with [] => UB | x :: _ => Ok x end.
  Proof.
    intros [(spare & E & L & F) Hl]. unfold heap_top, m_read. rewrite E. destruct l as [|x l]; [|done].
    cbn. destruct spare as [|s spare]; [done|]. apply Forall_cons in F as [Hs _]. cbn. by destruct s.
  Qed.

  Lemma root_least l x : strict_weak_order ltb -> heap_ordered (x :: l) -> least ltb x (x :: l).
  Proof.
    intros W O. split; [constructor|]. intros y Hy. apply elem_of_list_lookup in Hy as [i Hi].
    revert y Hi. induction i as [i IH] using lt_wf_ind. intros y Hi.
    destruct (decide (i = 0)) as [->|].
    - injection Hi as <-. apply (swo_irrefl _ W).
    - pose proof (child_parent i ltac:(lia)) as Hc. set (p := (i - 1) / 2) in *.
      assert (p < i) by (unfold child in Hc; lia).
      destruct (lookup_lt_is_Some_2 (x :: l) p) as [z Hz].
      { apply lookup_lt_Some in Hi. lia. }
      apply (swo_negtrans _ W _ z); [by apply (O i p)|by apply (IH p)].
  Qed.

  (** Which member top() picks: the least if [ltb] is an order, any member
      otherwise. *)
  Definition picks (x : T) (bag : list T) : Prop :=
    x ∈ bag /\ (strict_weak_order ltb -> least ltb x bag).

  Lemma picks_perm x l l' : l ≡ₚ l' -> picks x l -> picks x l'.
  Proof.
    intros P [H1 H2]. split; [by rewrite <- P|]. intros W. destruct (H2 W) as [_ H3].
    split; [by rewrite <- P|]. intros y Hy. apply H3. by rewrite P.
  Qed.

  Lemma bag_step_perm (R : T -> list T -> Prop) bag bag' o bag1 out ds : bag ≡ₚ bag' -> (forall x l l', l ≡ₚ l' -> R x l -> R x l') ->
    bag_step R bag o bag1 out ds -> exists bag1', bag_step R bag' o bag1' out ds /\ bag1' ≡ₚ bag1.
  Proof.
    intros P HR S. destruct S.
    - exists bag'0. split; [|done]. constructor. by rewrite <- P.
    - exists bag'0. split; [|done]. econstructor; [by eapply HR|by rewrite <- P].
    - exists bag'. split; [|done]. constructor. by eapply HR.
    - exists []. split; [|done]. constructor. by rewrite <- P.
    - exists bag'. split; [constructor|done].
    - exists bag'. split; [constructor|done].
    - exists bag'. split; [|done]. constructor. by rewrite <- P.
    - exists bag'. split; [|done]. rewrite P. constructor.
    - exists bag'. split; [|done]. assert (bool_decide (bag = []) = bool_decide (bag' = [])) as ->.
      { apply bool_decide_ext. split; intros ->; [by apply Permutation_nil_l in P|by apply Permutation_nil_r in P]. }
      constructor.
    - exists bag'. split; [|done]. constructor. by rewrite <- P.
  Qed.

  Lemma bag_run_perm (R : T -> list T -> Prop) (HR : forall x l l', l ≡ₚ l' -> R x l -> R x l') os : forall (bag bag' bag1 : list T) outs ds,
    bag ≡ₚ bag' -> bag_run R bag os bag1 outs ds -> bag_run R bag' os bag1 outs ds.
  Proof.
    induction os as [|o os IH]; intros bag bag' bag1 outs ds P S; inversion S; subst.
    - constructor. by rewrite <- P.
    - edestruct bag_step_perm as (b & S' & P'); [exact P|exact HR|eassumption|].
      econstructor; [exact S'|]. eapply IH; [symmetry; exact P'|done].
  Qed.

  Lemma heap_run_spec os : forall h l, hrep h l -> ok_order l ->
    match heap_contract (length l) os with
    | Ok _ => exists h' outs ds l', heap_run ltb h os = Ok (h', outs, ds) /\ hrep h' l' /\ ok_order l' /\
        bag_run picks l os l' outs ds
    | Die => heap_run ltb h os = Die
    | UB => heap_run ltb h os = UB
    | Diverge => False
    end.
  Proof.
    induction os as [|o os IH]; intros h l R O; cbn [heap_contract heap_run].
    { eexists _, _, _, l. split; [reflexivity|]. split; [done|]. split; [done|]. by constructor. }
    assert (forall h1 l1 out ds, heap_step ltb h o = Ok (h1, out, ds) -> hrep h1 l1 -> ok_order l1 ->
      bag_step picks l o l1 out ds ->
      match heap_contract (length l1) os with
      | Ok _ => exists h' outs ds l', ('(h1, out, ds) ← heap_step ltb h o; '(h2, outs, ds') ← heap_run ltb h1 os;
          Ok (h2, out :: outs, ds ++ ds')) = Ok (h', outs, ds) /\ hrep h' l' /\ ok_order l' /\
          bag_run picks l (o :: os) l' outs ds
      | Die => ('(h1, out, ds) ← heap_step ltb h o; '(h2, outs, ds') ← heap_run ltb h1 os;
          Ok (h2, out :: outs, ds ++ ds')) = Die
      | UB => ('(h1, out, ds) ← heap_step ltb h o; '(h2, outs, ds') ← heap_run ltb h1 os;
          Ok (h2, out :: outs, ds ++ ds')) = UB
      | Diverge => False
      end) as Hgo.
    { intros h1 l1 out ds E R1 O1 S. rewrite E. cbn [mbind res_bind]. specialize (IH h1 l1 R1 O1).
      destruct (heap_contract (length l1) os).
      - destruct IH as (h' & outs & ds' & l' & -> & R' & O' & S').
        eexists _, _, _, l'. split; [reflexivity|]. split; [done|]. split; [done|]. by econstructor.
      - by rewrite IH.
      - by rewrite IH.
      - done. }
    pose proof (hr_len _ _ R) as L.
    destruct o.
    - destruct (heap_push_spec h l x R O) as (h1 & l1 & E & R1 & P1 & O1).
      replace (S (length l)) with (length l1) by (by rewrite P1).
      apply (Hgo h1 l1 VUnit []); [cbn; by rewrite E|done|done|by constructor].
    - destruct l as [|x l].
      + cbn. unfold heap_pop. by rewrite L.
      + destruct (heap_pop_spec h x l R O) as (h1 & l1 & E & R1 & P1 & O1). cbn [length].
        replace (length l) with (length l1) by (by rewrite P1).
        apply (Hgo h1 l1 VUnit [x]); [cbn; by rewrite E|done|done|].
        constructor; [|by rewrite P1]. split; [constructor|]. intros W. by apply root_least, O.
    - destruct l as [|x l]; [cbn; by rewrite (heap_top_spec h _ R)|].
      apply (Hgo h (x :: l) (VVal x) []); [cbn; by rewrite (heap_top_spec h _ R)|done|done|].
      constructor. split; [constructor|]. intros W. by apply root_least, O.
    - destruct (heap_clear_spec h l R) as (h1 & E & R1).
      apply (Hgo h1 [] VUnit l); [cbn; by rewrite E|done| |by constructor].
      intros _ i j ? ? ?. by rewrite lookup_nil.
    - destruct (heap_reserve_spec h l n R) as (h1 & E & R1 & _).
      apply (Hgo h1 l VUnit []); [cbn; by rewrite E|done|done|by constructor].
    - destruct (heap_grow_spec h l R) as (h1 & E & R1 & _).
      apply (Hgo h1 l VUnit []); [cbn; by rewrite E|done|done|by constructor].
    - destruct (heap_clone_spec h l R) as (h1 & E & R1).
      apply (Hgo h1 l VUnit l); [|done|done|by constructor].
      cbn. rewrite E. cbn. unfold heap_move_assign. by rewrite (heap_destroy_spec h l R).
    - apply (Hgo h l (VNat (length l)) []); [cbn; by rewrite L|done|done|constructor].
    - apply (Hgo h l (VBool (bool_decide (l = []))) []); [|done|done|constructor].
      cbn. unfold heap_is_empty. rewrite L. by destruct l.
    - apply (Hgo h l (VList l) []); [cbn; by rewrite (heap_iterate_spec h l R)|done|done|by constructor].
  Qed.

  Lemma heap_push_all_spec xs : forall h l, hrep h l -> ok_order l ->
    exists h' l', heap_push_all ltb h xs = Ok h' /\ hrep h' l' /\ l' ≡ₚ l ++ xs /\ ok_order l'.
  Proof.
    induction xs as [|x xs IH]; intros h l R O; cbn [heap_push_all].
    - exists h, l. rewrite app_nil_r. done.
    - destruct (heap_push_spec h l x R O) as (h1 & l1 & -> & R1 & P1 & O1). cbn [mbind res_bind].
      destruct (IH h1 l1 R1 O1) as (h' & l' & E & R' & P' & O'). exists h', l'.
      split; [done|]. split; [done|]. split; [|done]. rewrite P', P1. cbn. by rewrite Permutation_middle.
  Qed.

  Lemma heap_of_spec xs : exists h l, heap_of ltb xs = Ok h /\ hrep h l /\ l ≡ₚ xs /\ ok_order l.
  Proof.
    unfold heap_of. destruct (heap_reserve_spec heap_empty [] (length xs) (hrep_empty 0)) as (h & -> & R & _).
    cbn [mbind res_bind]. destruct (heap_push_all_spec xs h [] R) as (h' & l' & E & R' & P & O).
    - intros _ i j ? ? ?. by rewrite lookup_nil.
    - eauto 8.
  Qed.

  Lemma heap_drain_spec n : forall h l, length l = n -> hrep h l -> ok_order l ->
    exists out, heap_drain ltb n h = Ok out /\ out ≡ₚ l /\ (strict_weak_order ltb -> sorted_by ltb out).
  Proof.
    induction n as [|n IH]; intros h l Hn R O; pose proof (hr_len _ _ R) as L; cbn [heap_drain]; unfold heap_is_empty; rewrite L, Hn.
    - exists []. destruct l; [|done]. split; [done|]. split; [done|]. intros _ i j x y _. by rewrite lookup_nil.
    - destruct l as [|x l]; [done|]. cbn [Nat.eqb]. rewrite (heap_top_spec h _ R). cbn [mbind res_bind].
      destruct (heap_pop_spec h x l R O) as (h1 & l1 & -> & R1 & P1 & O1). cbn [mbind res_bind].
      destruct (IH h1 l1) as (out & -> & P & Hs); [rewrite P1; by injection Hn|done|done|].
      cbn [mbind res_bind]. exists (x :: out). split; [done|]. split; [by rewrite P, P1|].
      intros W i j y z Hij Hy Hz. destruct j as [|j]; [lia|]. cbn in Hz. destruct i as [|i].
      + injection Hy as <-. destruct (root_least l x W (O W)) as [_ Hl]. apply Hl. constructor.
        rewrite <- P1, <- P. by eapply elem_of_list_lookup_2.
      + cbn in Hy. apply (Hs W i j); [lia|done|done].
  Qed.
End heap.
