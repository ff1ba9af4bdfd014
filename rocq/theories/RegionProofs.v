(** Invariant of the region allocator and the steps that keep it. *)
From Verif Require Import Base Word RegionModel RegionSpec.
Open Scope Z_scope.

Definition sum_used (cs : list chunk) : Z := foldr (fun c s => cused c + s) 0 cs.

Fixpoint chain (cs : list chunk) : Prop :=
  match cs with
  | [] => False
  | c :: cs' =>
      match cs' with
      | [] => cblock c = 0%nat /\ csize c = 1000 /\ 0 <= cused c <= csize c
      | c' :: _ =>
          cblock c <> 0%nat /\ 0 < cused c <= csize c /\ 2 * (csize c' + 24) <= csize c + 24 < 2 ^ 63 /\ chain cs'
      end
  end.
Lemma chain_cons c c' cs :
  chain (c :: c' :: cs) <->
  cblock c <> 0%nat /\ 0 < cused c <= csize c /\ 2 * (csize c' + 24) <= csize c + 24 < 2 ^ 63 /\ chain (c' :: cs).
Proof. done. Qed.
Lemma chain_head c cs : chain (c :: cs) -> 0 <= cused c <= csize c /\ 0 <= csize c /\ csize c + 24 < 2 ^ 63.
Proof. destruct cs as [|c' cs]; [cbn; lia|]. rewrite chain_cons. lia. Qed.
Lemma chain_sum cs : chain cs -> 0 <= sum_used cs /\ match cs with c :: _ => sum_used cs + (csize c - cused c) <= 2 * (csize c + 24) | [] => True end.
Proof.
  induction cs as [|c [|c' cs] IH]; [done|cbn; lia|].
  rewrite chain_cons. intros (_ & H1 & H2 & H3). specialize (IH H3). pose proof (chain_head _ _ H3).
  change (sum_used (c :: c' :: cs)) with (cused c + sum_used (c' :: cs)). lia.
Qed.
Lemma chain_sum_u64 cs : chain cs -> is_u 64 (sum_used cs).
Proof.
  intros H. pose proof (chain_sum _ H) as [H1 H2]. destruct cs as [|c cs]; [done|].
  apply chain_head in H. unfold is_u. change (2 ^ 64) with (2 * 2 ^ 63). lia.
Qed.

Inductive laid : list chunk -> list allocation -> Prop :=
| laid_start c : cused c = 0 -> laid [c] []
| laid_chunk c cs al : laid cs al -> cblock c ∉ (cblock <$> cs) -> cused c = 0 -> laid (c :: cs) al
| laid_alloc c c' cs al n :
    laid (c :: cs) al -> 0 <= n -> c' = mk_chunk (cblock c) (csize c) (cused c + n) ->
    laid (c' :: cs) (mk_alloc (cblock c) (24 + cused c) n :: al).

Lemma laid_nodup cs al : laid cs al -> NoDup (cblock <$> cs).
Proof.
  induction 1 as [c|c cs al H IH N|c c' cs al n H IH L ->]; cbn.
  - apply NoDup_singleton.
  - by constructor.
  - exact IH.
Qed.
Lemma laid_total cs al : laid cs al -> total al = sum_used cs.
Proof. unfold total, sum_used. induction 1 as [c|c cs al H IH N U|c c' cs al n H IH L ->]; cbn in *; lia. Qed.
Lemma laid_within cs al : laid cs al -> Forall (fun a =>
  0 <= asize a /\ exists c, c ∈ cs /\ cblock c = ablock a /\ 24 <= aoff a /\ aoff a + asize a <= 24 + cused c) al /\
  Forall (fun c => 0 <= cused c) cs.
Proof.
  induction 1 as [c U|c cs al H [IH1 IH2] N U|c c' cs al n H [IH1 IH2] L ->].
  - split; constructor; [lia|constructor].
  - split; [|constructor; [lia|done]]. eapply Forall_impl; [exact IH1|]. intros a (? & c0 & H0 & ?). split; [done|].
    exists c0. split; [by apply elem_of_list_further|done].
  - apply Forall_cons in IH2 as [P IH2]. split.
    + constructor.
      * split; [done|]. eexists. split; [apply elem_of_list_here|]. cbn. lia.
      * eapply Forall_impl; [exact IH1|]. intros a (? & c0 & [->|H0]%elem_of_cons & E & ? & ?); split; try done.
        -- eexists. split; [apply elem_of_list_here|]. cbn. split_and!; [done|done|lia].
        -- exists c0. split_and!; try done. by apply elem_of_list_further.
    + constructor; [cbn; lia|done].
Qed.
Lemma laid_disjoint cs al : laid cs al -> ForallOrdPairs disjoint al.
Proof.
  induction 1 as [c U|c cs al H IH N U|c c' cs al n H IH L ->]; [constructor|done|].
  constructor; [|done]. apply laid_within in H as W. destruct W as [W _].
  eapply Forall_impl; [exact W|]. intros a (? & c0 & H0 & E & ? & ?). unfold disjoint. cbn.
  destruct (decide (cblock c = ablock a)) as [Eb|]; [|by left]. right. right.
  apply elem_of_cons in H0 as [->|H0]; [lia|].
  apply laid_nodup in H. cbn in H. apply NoDup_cons in H as [H _]. exfalso. apply H.
  apply elem_of_list_fmap. exists c0. by rewrite E.
Qed.

Definition extends (S cs : list chunk) : Prop :=
  exists extra t tl d, S = t :: tl /\ cs = extra ++ mk_chunk (cblock t) (csize t) (cused t + d) :: tl /\
    0 <= d /\ Forall (fun c => 0 < cused c) extra.

Section level.
  Context (offs brands : list Z).
  Fixpoint level (rs : list open_region) (cs : list chunk) : Prop :=
    match rs with
    | [] => False
    | r :: rs' =>
        chain cs /\ laid cs (live rs) /\
        offs !! length rs' = Some (sum_used cs) /\ brands !! length rs' = Some (obrand r) /\
        match rs' with [] => True | _ => exists S, extends S cs /\ level rs' S end
    end.
End level.
Lemma level_ext offs brands offs' brands' rs cs :
  (forall i, (i < length rs)%nat -> offs' !! i = offs !! i /\ brands' !! i = brands !! i) ->
  level offs brands rs cs -> level offs' brands' rs cs.
Proof.
  revert cs. induction rs as [|r rs IH]; intros cs E; [done|]. cbn [level].
  intros (H1 & H2 & H3 & H4 & H5).
  destruct (E (length rs)) as [-> ->]; [cbn; lia|]. split_and!; try done.
  destruct rs as [|r' rs]; [done|]. destruct H5 as (S & ? & HS). exists S. split; [done|].
  apply IH; [|done]. intros i Hi. apply E. cbn in *. lia.
Qed.

Record inv (st : region_state) (rs : list open_region) : Prop := mk_inv {
  inv_level : level (region_offsets st) (region_brands st) rs (chunks st);
  inv_depth : length rs = S (current_region st);
  inv_small : (current_region st < 128)%nat;
  inv_offs : length (region_offsets st) = 128%nat;
  inv_brands : length (region_brands st) = 128%nat;
  inv_blocks : (cblock <$> chunks st) ++ freed st ≡ₚ seq 0 (S (mallocs st))
}.
Lemma inv_init : inv region_init [mk_open 0 []].
Proof.
  constructor; cbn; try done; [|lia].
  split_and!; try done; try lia. by constructor.
Qed.

Lemma inv_top st rs : inv st rs -> exists r rs' c cs,
  rs = r :: rs' /\ chunks st = c :: cs /\ current_region st = length rs' /\
  region_offsets st !! length rs' = Some (sum_used (c :: cs)) /\ region_brands st !! length rs' = Some (obrand r) /\
  chain (c :: cs) /\ laid (c :: cs) (live rs).
Proof.
  intros [L D _ _ _ _]. destruct rs as [|r rs']; [done|]. cbn in D.
  destruct (chunks st) as [|c cs] eqn:E; [destruct L as [[] _]|].
  destruct L as (H1 & H2 & H3 & H4 & _). exists r, rs', c, cs. split_and!; try done. lia.
Qed.

Lemma at_ok l i x : l !! i = Some x -> at_ l i = Ok x.
Proof. unfold at_. by intros ->. Qed.
Lemma put_at_ok l i x y : l !! i = Some y -> put_at l i x = Ok (<[i := x]> l).
Proof. unfold put_at. by intros ->. Qed.

Lemma assert_brand_eq st rs b : inv st rs ->
  assert_brand st b = if decide (obrand <$> head rs = Some b) then Ok tt else Die.
Proof.
  intros H. destruct (inv_top _ _ H) as (r & rs' & c & cs & -> & EC & ED & EO & EB & _).
  unfold assert_brand. rewrite ED, (at_ok _ _ _ EB). cbn [mbind res_bind head fmap option_fmap option_map].
  unfold assert_. destruct (Z.eqb_spec (obrand r) b) as [->|N]; case_decide; congruence.
Qed.

Lemma extends_refl cs c : extends (c :: cs) (c :: cs).
Proof. exists [], c, cs, 0. cbn. rewrite Z.add_0_r. destruct c. split_and!; done. Qed.

Lemma begin_step st rs b : inv st rs ->
  region_begin st b =
    if (length rs <? 128)%nat then
      Ok (mk_region (S (current_region st)) (<[length rs := sum_used (chunks st)]> (region_offsets st))
            (<[length rs := b]> (region_brands st)) (chunks st) (mallocs st) (freed st))
    else Die.
Proof.
  intros H. destruct (inv_top _ _ H) as (r & rs' & c & cs & -> & EC & ED & EO & EB & _).
  unfold region_begin. cbn [length]. rewrite ED. change MAX_REGION_DEPTH with 128%nat.
  unfold assert_. destruct (Nat.ltb_spec (S (length rs')) 128); [|done]. cbn [mbind res_bind].
  replace (S (length rs') - 1)%nat with (length rs') by lia.
  rewrite (at_ok _ _ _ EO). cbn [mbind res_bind].
  destruct (lookup_lt_is_Some_2 (region_offsets st) (S (length rs'))) as [x Ex]; [rewrite (inv_offs _ _ H); lia|].
  destruct (lookup_lt_is_Some_2 (region_brands st) (S (length rs'))) as [y Ey]; [rewrite (inv_brands _ _ H); lia|].
  rewrite (put_at_ok _ _ _ _ Ex), (put_at_ok _ _ _ _ Ey). cbn [mbind res_bind]. by rewrite EC.
Qed.
Lemma begin_inv st rs b : inv st rs -> (length rs < 128)%nat ->
  inv (mk_region (S (current_region st)) (<[length rs := sum_used (chunks st)]> (region_offsets st))
            (<[length rs := b]> (region_brands st)) (chunks st) (mallocs st) (freed st)) (mk_open b [] :: rs).
Proof.
  intros H L. pose proof H as [HL D SM HO HB HP].
  destruct (inv_top _ _ H) as (r & rs' & c & cs & E & EC & ED & EO & EB & CH & LA).
  constructor; cbn [region_offsets region_brands chunks current_region mallocs freed].
  - rewrite EC in *. cbn [level]. split_and!; [done| | | |].
    + exact LA.
    + rewrite list_lookup_insert by lia. done.
    + rewrite list_lookup_insert by lia. done.
    + destruct rs as [|r0 rs0]; [done|]. exists (c :: cs). split; [apply extends_refl|].
      eapply level_ext; [|exact HL]. intros i Hi. rewrite !list_lookup_insert_ne by lia. done.
  - cbn. lia.
  - lia.
  - by rewrite insert_length.
  - by rewrite insert_length.
  - done.
Qed.

(** ** alloc *)
Definition grown (st : region_state) (c : chunk) (cs : list chunk) (n : Z) (m : nat) : region_state :=
  mk_region (current_region st) (<[current_region st := sum_used (chunks st) + n]> (region_offsets st)) (region_brands st)
    (mk_chunk (cblock c) (csize c) (cused c + n) :: cs) m (freed st).

Lemma extends_grow S c cs n : extends S (c :: cs) -> 0 <= n ->
  extends S (mk_chunk (cblock c) (csize c) (cused c + n) :: cs).
Proof.
  intros (extra & t & tl & d & -> & E & D & F) N. destruct extra as [|e extra]; cbn in E.
  - injection E as -> ->. exists [], t, tl, (d + n). cbn. split_and!; try done; try lia. by rewrite Z.add_assoc.
  - injection E as <- ->. apply Forall_cons in F as [F1 F2].
    exists (mk_chunk (cblock c) (csize c) (cused c + n) :: extra), t, tl, d. split_and!; try done.
    constructor; [cbn; lia|done].
Qed.
Lemma extends_push S c cs : extends S cs -> 0 < cused c -> extends S (c :: cs).
Proof.
  intros (extra & t & tl & d & -> & -> & D & F) N. exists (c :: extra), t, tl, d. split_and!; try done.
  by constructor.
Qed.

Lemma alloc_in_place st rs r rs' c cs n : inv st rs -> rs = r :: rs' -> chunks st = c :: cs ->
  0 <= n -> cused c + n <= csize c ->
  inv (grown st c cs n (mallocs st)) (mk_open (obrand r) (mk_alloc (cblock c) (24 + cused c) n :: oallocs r) :: rs').
Proof.
  intros H -> EC N FIT. pose proof H as [HL D SM HO HB HP].
  destruct (inv_top _ _ H) as (r0 & rs0 & c0 & cs0 & E & EC0 & ED & EO & EB & CH & LA).
  injection E as <- <-. rewrite EC in EC0. injection EC0 as <- <-. rewrite EC in HL, HP.
  constructor; cbn [grown region_offsets region_brands chunks current_region mallocs freed].
  - cbn [level]. cbn [level] in HL. destruct HL as (_ & _ & _ & _ & HS). split_and!.
    + destruct cs as [|c1 cs]; [cbn in *; lia|]. rewrite chain_cons in CH |- *. destruct CH as (? & ? & ? & ?).
      cbn [cblock csize cused]. split_and!; try done; lia.
    + cbn [live map List.concat oallocs app]. eapply laid_alloc; [exact LA|done|done].
    + rewrite ED, list_lookup_insert by lia. rewrite EC. unfold sum_used. cbn. f_equal. lia.
    + done.
    + destruct rs' as [|r1 rs1]; [done|]. destruct HS as (S & E & HS). exists S. split; [by apply extends_grow|].
      eapply level_ext; [|exact HS]. intros i Hi. rewrite list_lookup_insert_ne by (cbn in *; lia). done.
  - cbn in *. lia.
  - lia.
  - by rewrite insert_length.
  - done.
  - exact HP.
Qed.
Lemma alloc_new_chunk st rs r rs' c cs n size : inv st rs -> rs = r :: rs' -> chunks st = c :: cs ->
  0 < n -> n + 24 <= size -> 2 * (csize c + 24) <= size < 2 ^ 63 ->
  inv (grown st (mk_chunk (S (mallocs st)) (size - 24) 0) (c :: cs) n (S (mallocs st)))
      (mk_open (obrand r) (mk_alloc (S (mallocs st)) 24 n :: oallocs r) :: rs').
Proof.
  intros H -> EC N FIT BIG. pose proof H as [HL D SM HO HB HP].
  destruct (inv_top _ _ H) as (r0 & rs0 & c0 & cs0 & E & EC0 & ED & EO & EB & CH & LA).
  injection E as <- <-. rewrite EC in EC0. injection EC0 as <- <-. rewrite EC in HL, HP.
  assert (S (mallocs st) ∉ (cblock <$> c :: cs) ++ freed st) as FR.
  { rewrite HP, elem_of_seq. lia. }
  constructor; cbn [grown region_offsets region_brands chunks current_region mallocs freed cblock csize cused].
  - cbn [level]. cbn [level] in HL. destruct HL as (_ & _ & _ & _ & HS). split_and!.
    + rewrite chain_cons. cbn [cblock csize cused]. split_and!; try done; lia.
    + cbn [live map List.concat oallocs app].
      apply (laid_alloc (mk_chunk (S (mallocs st)) (size - 24) 0) _ _ _ n); [|lia|done].
      constructor; [exact LA| |done]. cbn [cblock]. intros X. apply FR, elem_of_app. by left.
    + rewrite ED, list_lookup_insert by lia. rewrite EC. unfold sum_used. cbn. f_equal. lia.
    + done.
    + destruct rs' as [|r1 rs1]; [done|]. destruct HS as (S & E & HS). exists S.
      split; [apply extends_push; [done|cbn; lia]|].
      eapply level_ext; [|exact HS]. intros i Hi. rewrite list_lookup_insert_ne by (cbn in *; lia). done.
  - cbn in *. lia.
  - lia.
  - by rewrite insert_length.
  - done.
  - cbn [fmap list_fmap cblock]. rewrite (seq_S (S (mallocs st))). cbn [app]. rewrite <- HP. cbn.
    apply Permutation_cons_append.
Qed.

Lemma alloc_step st rs b n refuse r rs' c cs : inv st rs -> rs = r :: rs' -> chunks st = c :: cs ->
  0 <= n < 2 ^ 64 - 24 ->
  region_alloc st b n refuse =
    if decide (obrand r = b) then
      if csize c - cused c <? n then
        if refuse || (2 ^ 63 <=? Z.max (n + 24) (2 * (csize c + 24))) then Die
        else Ok (grown st (mk_chunk (S (mallocs st)) (Z.max (n + 24) (2 * (csize c + 24)) - 24) 0) (c :: cs) n (S (mallocs st)),
                 (S (mallocs st), 24))
      else Ok (grown st c cs n (mallocs st), (cblock c, 24 + cused c))
    else Die.
Proof.
  intros H -> EC N.
  destruct (inv_top _ _ H) as (r0 & rs0 & c0 & cs0 & E & EC0 & ED & EO & EB & CH & LA).
  injection E as <- <-. rewrite EC in EC0. injection EC0 as <- <-.
  pose proof (chain_head _ _ CH) as (HH1 & HH2 & HH3). pose proof (chain_sum _ CH) as (HS1 & HS2).
  unfold region_alloc. rewrite (assert_brand_eq _ _ _ H). cbn [head fmap option_fmap option_map].
  destruct (decide (obrand r = b)) as [<-|NB]; [|by case_decide; [congruence|]].
  rewrite decide_True by done. cbn [mbind res_bind]. rewrite EC.
  change (2 ^ 64) with 18446744073709551616 in *. change (2 ^ 63) with 9223372036854775808 in *.
  assert (forall x, 0 <= x < 18446744073709551616 -> wrap 64 x = x) as W by (intros x Hx; by apply wrap_small).
  rewrite (W (csize c - cused c)) by lia.
  destruct (Z.ltb_spec (csize c - cused c) n) as [FULL|FIT].
  - unfold new_chunk. rewrite EC. change SIZEOF_CHUNK with 24.
    rewrite (W (n + 24)), (W (csize c + 24)), (W (2 * (csize c + 24))) by lia.
    unfold regions_alloc. change (2 ^ 63) with 9223372036854775808.
    destruct (refuse || (9223372036854775808 <=? Z.max (n + 24) (2 * (csize c + 24)))) eqn:R; [done|].
    apply orb_false_iff in R as [_ R]. apply Z.leb_gt in R. cbn [mbind res_bind].
    rewrite W by lia. unfold set_chunks. cbn [chunks current_region region_offsets region_brands mallocs freed cblock csize cused].
    rewrite ED, (at_ok _ _ _ EO). cbn [mbind res_bind]. rewrite (put_at_ok _ _ _ _ EO). cbn [mbind res_bind].
    rewrite EC. unfold grown. rewrite ED, EC. cbn [cblock csize cused].
    rewrite (W (0 + n)) by lia. rewrite (W (sum_used (c :: cs) + n)) by lia. done.
  - cbn [mbind res_bind]. rewrite EC. change SIZEOF_CHUNK with 24.
    rewrite ED, (at_ok _ _ _ EO). cbn [mbind res_bind]. rewrite (put_at_ok _ _ _ _ EO). cbn [mbind res_bind].
    unfold grown. rewrite ED, EC. rewrite (W (cused c + n)) by lia.
    rewrite (W (sum_used (c :: cs) + n)) by lia. done.
Qed.

(** ** end *)
Definition dropped (st : region_state) (cs : list chunk) (extra : list chunk) : region_state :=
  mk_region (current_region st) (region_offsets st) (region_brands st) cs (mallocs st) (freed st ++ (cblock <$> extra)).

Lemma free_chunks_eq extra : forall st fuel t tl d,
  chunks st = extra ++ mk_chunk (cblock t) (csize t) (cused t + d) :: tl ->
  Forall (fun c => 0 < cused c /\ cblock c <> 0%nat) extra ->
  0 <= d -> 0 <= cused t -> 0 <= sum_used extra + d < 2 ^ 64 -> (length extra <= fuel)%nat ->
  (exists e, d = 0 /\ last extra = Some e /\
     free_chunks fuel st (sum_used extra + d) =
       Ok (dropped st (e :: t :: tl) (removelast extra), cused e)) \/
  ((0 < d \/ extra = []) /\
     free_chunks fuel st (sum_used extra + d) =
       Ok (dropped st (mk_chunk (cblock t) (csize t) (cused t + d) :: tl) extra, d)).
Proof.
  induction extra as [|e extra IH]; intros st fuel t tl d EC F D T B L.
  - right. split; [by right|]. cbn [sum_used foldr] in *. cbn [app] in EC.
    destruct fuel; cbn [free_chunks]; rewrite EC; cbn [cused];
      (destruct (Z.ltb_spec (cused t + d) (0 + d)); [lia|]);
      unfold dropped; rewrite <- EC; cbn [fmap list_fmap]; rewrite app_nil_r; by destruct st.
  - apply Forall_cons in F as [[F1 F2] F]. cbn [app] in EC.
    change (sum_used (e :: extra)) with (cused e + sum_used extra) in *.
    assert (0 <= sum_used extra) as SE.
    { clear -F. unfold sum_used. induction F as [|c cs [? ?] ? IH]; cbn in *; lia. }
    destruct fuel as [|fuel]; [cbn in L; lia|].
    cbn [free_chunks]. rewrite EC.
    destruct (Z.ltb_spec (cused e) (cused e + sum_used extra + d)) as [MORE|DONE].
    + unfold pop_chunk. rewrite EC. unfold regions_free. rewrite (proj2 (Nat.eqb_neq _ _) F2).
      unfold set_chunks. cbn [chunks current_region region_offsets region_brands mallocs freed mbind res_bind].
      rewrite wrap_small by (unfold is_u; lia).
      replace (cused e + sum_used extra + d - cused e) with (sum_used extra + d) by lia.
      edestruct (IH (mk_region (current_region st) (region_offsets st) (region_brands st)
        (extra ++ mk_chunk (cblock t) (csize t) (cused t + d) :: tl) (mallocs st) (freed st ++ [cblock e])) fuel t tl d)
        as [(x & -> & LE & EQ)|[OR EQ]]; try done; try lia; [cbn in L; lia| |].
      * left. exists x. destruct extra as [|e' extra]; [done|]. split_and!; [done|done|].
        rewrite EQ. unfold dropped. cbn [chunks current_region region_offsets region_brands mallocs freed].
        change (removelast (e :: e' :: extra)) with (e :: removelast (e' :: extra)).
        cbn [fmap list_fmap]. by rewrite <- app_assoc.
      * right. split.
        { left. destruct OR as [OR|E0]; [done|]; subst extra. cbn in MORE. lia. }
        rewrite EQ. unfold dropped. cbn [chunks current_region region_offsets region_brands mallocs freed].
        cbn [fmap list_fmap]. by rewrite <- app_assoc.
    + left. exists e. assert (d = 0) as -> by lia.
      assert (extra = []) as ->.
      { destruct F as [|c cs [? ?] F']; [done|]. exfalso. unfold sum_used in DONE, SE. cbn in DONE, SE.
        assert (0 <= foldr (fun c s => cused c + s) 0 cs); [|lia].
        clear -F'. induction F' as [|c cs [? ?] ? IH]; cbn in *; [lia|]. lia. }
      split_and!; [done|done|]. cbn [sum_used foldr removelast]. unfold dropped. cbn [fmap list_fmap].
      rewrite app_nil_r. f_equal. f_equal; [|lia]. cbn [app] in EC.
      rewrite Z.add_0_r in EC. destruct t, st; cbn in *. by rewrite EC.
Qed.

Definition ended (st : region_state) (S : list chunk) (gone : list nat) : region_state :=
  mk_region (current_region st - 1) (region_offsets st) (region_brands st) S (mallocs st) (freed st ++ gone).

Lemma end_step st rs b r r' rs' S : inv st rs -> rs = r :: r' :: rs' ->
  extends S (chunks st) -> level (region_offsets st) (region_brands st) (r' :: rs') S ->
  exists gone, region_end st b = (if decide (obrand r = b) then Ok (ended st S gone) else Die) /\
    inv (ended st S gone) (r' :: rs') /\ cblock <$> chunks st = gone ++ (cblock <$> S).
Proof.
  intros H -> EX LV. pose proof H as [HL D SM HO HB HP].
  destruct (inv_top _ _ H) as (r0 & rs0 & c0 & cs0 & E & EC0 & ED & EO & EB & CH & LA).
  injection E as <- <-. cbn [length] in EO, EB, ED. destruct EX as (extra & t & tl & d & -> & EC & Dn & F).
  exists (cblock <$> extra).
  assert (cblock <$> chunks st = (cblock <$> extra) ++ (cblock <$> t :: tl)) as EB2.
  { rewrite EC, fmap_app. done. }
  cbn [level] in LV. destruct LV as (CHS & LAS & EOS & EBS & REST).
  split_and!; [|constructor|done].
  - unfold region_end. rewrite ED. cbn [length Nat.ltb Nat.leb]. cbn [assert_ mbind res_bind].
    rewrite (assert_brand_eq _ _ _ H). cbn [head fmap option_fmap option_map].
    destruct (decide (obrand r = b)) as [<-|NB]; [|by case_decide; [congruence|]].
    rewrite decide_True by done. cbn [mbind res_bind].
    rewrite (at_ok _ _ _ EO). cbn [mbind res_bind length].
    replace (S (length rs') - 1)%nat with (length rs') by lia.
    rewrite (at_ok _ _ _ EOS). cbn [mbind res_bind chunks].
    assert (sum_used (c0 :: cs0) = sum_used extra + d + sum_used (t :: tl)) as SU.
    { rewrite <- EC0, EC. clear. unfold sum_used. induction extra; cbn in *; lia. }
    pose proof (chain_sum_u64 _ CH) as [U1 U2]. pose proof (chain_sum_u64 _ CHS) as [U3 U4].
    assert (0 <= sum_used extra) as SE.
    { clear -F. unfold sum_used. induction F; cbn in *; lia. }
    rewrite SU. replace (sum_used extra + d + sum_used (t :: tl) - sum_used (t :: tl)) with (sum_used extra + d) by lia.
    rewrite wrap_small by (unfold is_u; lia).
    pose proof (chain_head _ _ CHS) as (T1 & T2 & T3).
    assert (Forall (fun c => 0 < cused c /\ cblock c <> 0%nat) extra) as F'.
    { rewrite EC0 in EC. rewrite EC in CH. clear -CH F. induction extra as [|e extra IH]; [constructor|].
      apply Forall_cons in F as [F1 F2].
      assert (exists x y, extra ++ mk_chunk (cblock t) (csize t) (cused t + d) :: tl = x :: y) as (x & y & E).
      { destruct extra; cbn; eauto. }
      cbn [app] in CH. rewrite E, chain_cons, <- E in CH. destruct CH as (? & ? & ? & ?). constructor; [done|].
      apply IH; done. }
    set (st0 := mk_region (length rs') (region_offsets st) (region_brands st) (chunks st) (mallocs st) (freed st)).
    destruct (free_chunks_eq extra st0 (length (chunks st)) t tl d) as [(e & -> & LE & ->)|[OR ->]];
      try done; try lia.
    { rewrite EC, app_length. lia. }
    + cbn [mbind res_bind dropped chunks]. cbn [cused csize cblock].
      rewrite Z.sub_diag. change (wrap 64 0) with 0. rewrite Z.eqb_refl. rewrite (bool_decide_eq_false_2 (t :: tl = [])) by done. cbn [negb andb].
      unfold pop_chunk, set_chunks, regions_free. cbn [chunks cblock dropped].
      apply last_Some in LE as (ex & ->). apply Forall_app in F' as [_ [[_ Fe] _]%Forall_cons].
      rewrite (proj2 (Nat.eqb_neq _ _) Fe). cbn [current_region region_offsets region_brands mallocs freed].
      unfold ended, st0. cbn [current_region region_offsets region_brands mallocs freed]. rewrite ED. cbn [length].
      rewrite removelast_last. replace (S (length rs') - 1)%nat with (length rs') by lia.
      unfold dropped. cbn [current_region region_offsets region_brands mallocs freed chunks].
      rewrite fmap_app, app_assoc. done.
    + cbn [mbind res_bind dropped chunks cused csize cblock].
      replace (cused t + d - d) with (cused t) by lia.
      change (2 ^ 63) with 9223372036854775808 in *.
      rewrite wrap_small by (unfold is_u; change (2 ^ 64) with 18446744073709551616; lia).
      assert ((cused t =? 0) && negb (bool_decide (tl = [])) = false) as ->.
      { destruct tl as [|t' tl]; [by rewrite andb_false_r|]. rewrite chain_cons in CHS.
        destruct (Z.eqb_spec (cused t) 0); [lia|done]. }
      unfold ended, set_chunks, dropped, st0. cbn [current_region region_offsets region_brands mallocs freed].
      rewrite ED. cbn [length]. replace (S (length rs') - 1)%nat with (length rs') by lia. by destruct t.
  - cbn [ended region_offsets region_brands chunks level]. split_and!; done.
  - cbn in *. lia.
  - cbn. lia.
  - done.
  - done.
  - cbn [ended chunks freed mallocs]. rewrite <- HP, EB2.
    rewrite (app_assoc (cblock <$> t :: tl) (freed st)), (Permutation_app_comm _ (cblock <$> extra)), app_assoc. done.
Qed.
Close Scope Z_scope.
