(** Lemmas about runs of elements and the invariant of SliceModel. *)
From Verif Require Import Word SliceModel SliceSpec.

Lemma elements_length sz n l : length (elements_of sz n l) = n.
Proof. unfold elements_of. by rewrite map_length, seq_length. Qed.
Lemma elements_lookup sz n l k : k < n -> elements_of sz n l !! k = Some (take sz (drop (k * sz) l)).
Proof. intros H. unfold elements_of. rewrite list_lookup_fmap, lookup_seq_lt by done. done. Qed.
Lemma elements_S sz n l : elements_of sz (S n) l = take sz l :: elements_of sz n (drop sz l).
Proof.
  unfold elements_of. cbn [seq map]. rewrite Nat.mul_0_l, drop_0. f_equal. rewrite <-seq_shift, map_map. apply map_ext. intros k.
  rewrite drop_drop. done.
Qed.
Lemma elements_sub sz M l a n : a + n <= M -> elements_of sz n (drop (a * sz) l) = take n (drop a (elements_of sz M l)).
Proof.
  intros H. apply list_eq. intros k. destruct (decide (k < n)) as [L|L].
  - rewrite elements_lookup by done. rewrite lookup_take by done. rewrite lookup_drop, elements_lookup by lia. rewrite drop_drop. repeat f_equal. lia.
  - rewrite lookup_ge_None_2 by (rewrite elements_length; lia). by rewrite lookup_take_ge by lia.
Qed.
Lemma elements_concat sz xs r : Forall (fun x => length x = sz) xs -> elements_of sz (length xs) (concat xs ++ r) = xs.
Proof.
  induction 1 as [|x xs Hx _ IH]; [done|]. cbn [length concat]. rewrite elements_S, <-app_assoc, take_app_alt, drop_app_alt by done. by rewrite IH.
Qed.
Lemma concat_elements sz n l : n * sz <= length l -> concat (elements_of sz n l) = take (n * sz) l.
Proof.
  revert l. induction n as [|n IH]; intros l H; [done|]. rewrite elements_S. cbn [concat]. cbn [Nat.mul] in *.
  rewrite IH by (rewrite drop_length; lia). rewrite <-(take_drop sz l) at 3. rewrite take_app_ge by (rewrite take_length; lia). f_equal. f_equal.
  rewrite take_length. lia.
Qed.
Lemma elements_bytes n l : n <= length l -> elements_of 1 n l = map (fun b => [b]) (take n l).
Proof.
  revert l. induction n as [|n IH]; intros l H; [done|]. rewrite elements_S. destruct l as [|b l]; cbn in H; [lia|]. cbn [take drop map].
  rewrite drop_0, take_0. rewrite IH by (cbn in *; lia). done.
Qed.
Lemma elements_write sz n l k x : k < n -> n * sz <= length l -> length x = sz ->
  elements_of sz n (take (k * sz) l ++ x ++ drop (k * sz + sz) l) = <[k := x]> (elements_of sz n l).
Proof.
  intros Hk Hn Hx. apply list_eq. intros j. destruct (decide (j < n)) as [L|L].
  2:{ rewrite !lookup_ge_None_2; [done| |]; rewrite ?insert_length, elements_length; lia. }
  assert (k * sz + sz <= n * sz) by nia.
  rewrite elements_lookup by done. destruct (decide (j = k)) as [->|Ne].
  - rewrite list_lookup_insert by (rewrite elements_length; lia). rewrite drop_app_alt by (rewrite take_length; lia). by rewrite take_app_alt.
  - rewrite list_lookup_insert_ne by done. rewrite elements_lookup by done. f_equal. destruct (decide (j < k)) as [J|J].
    + assert (j * sz + sz <= k * sz) by nia. rewrite drop_app_le by (rewrite take_length; lia). rewrite take_app_le by (rewrite drop_length, take_length; lia).
      rewrite <-(take_drop (k * sz) l) at 2. rewrite drop_app_le by (rewrite take_length; lia). rewrite take_app_le by (rewrite drop_length, take_length; lia). done.
    + assert (k * sz + sz <= j * sz) by nia. rewrite drop_app_ge by (rewrite take_length; lia). rewrite take_length.
      rewrite drop_app_ge by lia. rewrite drop_drop. f_equal. f_equal. lia.
Qed.
(** An element that a write does not meet *)
Lemma elements_elsewhere sz n o l p x : o + n * sz <= length l -> p + length x <= length l ->
  (forall i, o <= i < o + n * sz -> ~ (p <= i < p + length x)) ->
  elements_of sz n (drop o (take p l ++ x ++ drop (p + length x) l)) = elements_of sz n (drop o l).
Proof.
  intros Ho Hp D. unfold elements_of. apply map_ext_in. intros k Hk. apply elem_of_list_In, elem_of_seq in Hk. destruct Hk as [_ Hk]. cbn in Hk.
  assert (k * sz + sz <= n * sz) by nia. rewrite !drop_drop.
  apply list_eq. intros j. destruct (decide (j < sz)) as [J|J]; [|by rewrite !lookup_take_ge by lia].
  rewrite !lookup_take by done. rewrite !lookup_drop. set (i := o + k * sz + j). assert (~ (p <= i < p + length x)) as Q by (apply D; lia).
  destruct (decide (i < p)) as [I|I].
  - rewrite lookup_app_l by (rewrite take_length; lia). by rewrite lookup_take by done.
  - rewrite lookup_app_r by (rewrite take_length; lia). rewrite take_length. rewrite lookup_app_r by lia. rewrite lookup_drop. f_equal. lia.
Qed.

Open Scope Z_scope.
Definition array_fits (m : list (list Z)) (b : nat) (a : array) : Prop :=
  0 < asize a /\ 0 < N a /\ asize a * N a < 2 ^ 63 /\ exists block, m !! b = Some block /\ Z.of_nat (length block) = asize a * N a.
Definition slice_fits (m : list (list Z)) (s : slice) : Prop :=
  0 < size s /\ 0 <= length_ s /\
  match data_ s with
  | None => length_ s = 0
  | Some (b, o) => exists block, m !! b = Some block /\ 0 <= o /\ o + length_ s * size s <= Z.of_nat (length block) < 2 ^ 63
  end.
Record fits (s : st) : Prop := {
  f_len : length (arrays s) = length (mem s);
  f_arr : forall a r, arrays s !! a = Some r -> array_fits (mem s) a r;
  f_slc : forall i x, slices s !! i = Some x -> slice_fits (mem s) x
}.

Lemma ptr_add_ok m sz b o k block : m !! b = Some block -> 0 <= o + k * sz <= Z.of_nat (length block) ->
  ptr_add m sz (Some (b, o)) k = Ok (Some (b, o + k * sz)).
Proof. intros E H. unfold ptr_add. rewrite E. cbv zeta. rewrite (proj2 (Z.leb_le 0 _)), (proj2 (Z.leb_le _ _)) by lia. done. Qed.
Lemma load_ok m sz b o block : m !! b = Some block -> 0 <= o -> o + sz <= Z.of_nat (length block) ->
  load m sz (Some (b, o)) = Ok (take (Z.to_nat sz) (drop (Z.to_nat o) block)).
Proof. intros E H H'. unfold load. rewrite E. rewrite (proj2 (Z.leb_le 0 _)), (proj2 (Z.leb_le _ _)) by lia. done. Qed.
Lemma store_ok m b o block x : m !! b = Some block -> 0 <= o -> o + Z.of_nat (length x) <= Z.of_nat (length block) ->
  store m (Some (b, o)) x = Ok (<[b := take (Z.to_nat o) block ++ x ++ drop (Z.to_nat o + length x)%nat block]> m).
Proof. intros E H H'. unfold store. rewrite E. rewrite (proj2 (Z.leb_le 0 _)), (proj2 (Z.leb_le _ _)) by lia. done. Qed.
Lemma written_length (o : nat) (x block : list Z) : (o + length x <= length block)%nat ->
  length (take o block ++ x ++ drop (o + length x) block) = length block.
Proof. intros H. rewrite !app_length, take_length, drop_length. lia. Qed.
Lemma bound_k k n sz : 0 <= k < n -> 0 < sz -> 0 <= k * sz /\ k * sz + sz <= n * sz.
Proof. nia. Qed.

Lemma to_nat_lin o k sz : 0 <= o -> 0 <= k -> 0 <= sz -> Z.to_nat (o + k * sz) = (Z.to_nat o + Z.to_nat k * Z.to_nat sz)%nat.
Proof. intros. rewrite Z2Nat.inj_add, Z2Nat.inj_mul by nia. done. Qed.
(** *** Memory grows or keeps its shape *)
Definition same_shape (m m' : list (list Z)) : Prop := forall b block, m !! b = Some block -> exists block', m' !! b = Some block' /\ length block' = length block.
Lemma array_fits_shape m m' b a : same_shape m m' -> array_fits m b a -> array_fits m' b a.
Proof. intros S (H1 & H2 & H3 & bl & E & L). destruct (S _ _ E) as (bl' & E' & L'). unfold array_fits. rewrite E'. split_and!; try done. exists bl'. split; [done|]. by rewrite L'. Qed.
Lemma slice_fits_shape m m' x : same_shape m m' -> slice_fits m x -> slice_fits m' x.
Proof.
  intros S (H1 & H2 & H3). unfold slice_fits. split_and!; try done. destruct (data_ x) as [[b o]|]; [|done].
  destruct H3 as (bl & E & H). destruct (S _ _ E) as (bl' & E' & L'). exists bl'. split; [done|]. by rewrite L'.
Qed.
Lemma same_shape_app m l : same_shape m (m ++ [l]).
Proof. intros b bl E. exists bl. split; [|done]. apply lookup_app_l_Some, E. Qed.
Lemma same_shape_insert m b bl bl' : m !! b = Some bl -> length bl' = length bl -> same_shape m (<[b := bl']> m).
Proof.
  intros E L c x Ex. destruct (decide (c = b)) as [->|Ne].
  - exists bl'. rewrite list_lookup_insert by (eapply lookup_lt_Some; eauto). split; [done|]. congruence.
  - exists x. by rewrite list_lookup_insert_ne.
Qed.
Lemma fits_add s x : fits s -> slice_fits (mem s) x -> fits (add_slice s x).
Proof.
  intros F X. split; [apply F|apply F|]. intros i y E. cbn in E. apply lookup_app_Some in E. destruct E as [E|[_ E]]; [exact (f_slc _ F _ _ E)|].
  apply list_lookup_singleton_Some in E. destruct E as [_ <-]. done.
Qed.
Lemma fits_mem s m' : fits s -> same_shape (mem s) m' -> length m' = length (mem s) -> fits (St m' (arrays s) (slices s)).
Proof.
  intros F S L. split; cbn; [rewrite L; apply F| |]; intros i x E.
  - apply (array_fits_shape _ _ _ _ S), (f_arr _ F _ _ E).
  - apply (slice_fits_shape _ _ _ S), (f_slc _ F _ _ E).
Qed.
Lemma fits_new s l r : fits s -> array_fits (mem s ++ [l]) (length (mem s)) r -> fits (St (mem s ++ [l]) (arrays s ++ [r]) (slices s)).
Proof.
  intros F X. split; cbn.
  - rewrite !app_length, (f_len _ F). done.
  - intros a y E. apply lookup_app_Some in E. destruct E as [E|[H E]].
    + eapply array_fits_shape; [apply same_shape_app|]. exact (f_arr _ F _ _ E).
    + apply list_lookup_singleton_Some in E. destruct E as [E <-]. replace a with (length (mem s)); [done|]. rewrite <-(f_len _ F). lia.
  - intros i y E. eapply slice_fits_shape; [apply same_shape_app|]. exact (f_slc _ F _ _ E).
Qed.

(** *** Views of slices that fit *)
Lemma view_count m x : slice_fits m x -> count (view m x) = length_ x.
Proof.
  intros (H1 & H2 & H3). unfold count, view. destruct (data_ x) as [[b o]|]; [|by rewrite H3]. rewrite elements_length. lia.
Qed.
Lemma view_at m x k : slice_fits m x -> 0 <= k < length_ x -> exists b o block,
  data_ x = Some (b, o) /\ m !! b = Some block /\ 0 <= o + k * size x /\ o + k * size x + size x <= Z.of_nat (length block) < 2 ^ 63 /\ 0 <= o /\
  o + length_ x * size x <= Z.of_nat (length block) /\
  take (Z.to_nat (size x)) (drop (Z.to_nat (o + k * size x)) block) = element (view m x) k.
Proof.
  intros (H1 & H2 & H3) Hk. destruct (data_ x) as [[b o]|] eqn:D; [|lia]. destruct H3 as (bl & E & Ho & Hb). exists b, o, bl.
  destruct (bound_k k (length_ x) (size x)) as [B1 B2]; [done..|]. split_and!; try done; try lia.
  unfold element, view. rewrite D, E. cbn [default from_option id]. rewrite elements_lookup by lia. cbn [default from_option id]. rewrite drop_drop. rewrite to_nat_lin by lia. done.
Qed.
Lemma get_ok m x k : slice_fits m x -> 0 <= k ->
  (p ← at_ m x k; load m (size x) p) = (if k <? length_ x then Ok (element (view m x) k) else Die).
Proof.
  intros F Hk. unfold at_. destruct (Z.ltb_spec k (length_ x)) as [L|L]; [|done]. cbn [mbind res_bind assert_].
  destruct (view_at m x k F) as (b & o & bl & D & E & B1 & B2 & B3 & B4 & V); [lia|]. rewrite D. destruct F as (F & _).
  rewrite (ptr_add_ok _ _ _ _ _ bl) by (done || lia). cbn [mbind res_bind]. rewrite (load_ok _ _ _ _ bl) by (done || lia). by rewrite V.
Qed.
Lemma element_head l : element l 0 = default [] (head l).
Proof. by destruct l. Qed.
Lemma element_last l : l <> [] -> element l (count l - 1) = default [] (last l).
Proof. intros H. unfold element, count. rewrite last_lookup. f_equal. f_equal. lia. Qed.

Lemma read_from_ok m sz b block n : forall o, 0 < sz -> m !! b = Some block -> 0 <= o -> o + Z.of_nat n * sz <= Z.of_nat (length block) ->
  read_from m sz (Some (b, o)) n = Ok (elements_of (Z.to_nat sz) n (drop (Z.to_nat o) block)).
Proof.
  induction n as [|n IH]; intros o Hs E Ho H; [done|]. cbn [read_from]. rewrite (load_ok _ _ _ _ block) by (done || nia). cbn [mbind res_bind].
  rewrite (ptr_add_ok _ _ _ _ _ block) by (done || nia). cbn [mbind res_bind]. rewrite Z.mul_1_l. rewrite IH by (done || nia). cbn [mbind res_bind].
  rewrite elements_S, drop_drop. do 4 f_equal. lia.
Qed.
Lemma elements_ok m x : slice_fits m x -> elements m x = Ok (view m x).
Proof.
  intros (H1 & H2 & H3). unfold elements, view. destruct (data_ x) as [[b o]|].
  - destruct H3 as (bl & E & Ho & Hb). rewrite (ptr_add_ok _ _ _ _ _ bl) by (done || nia). cbn [mbind res_bind]. rewrite E. cbn [default from_option id].
    apply read_from_ok; [done..|]. lia.
  - rewrite H3. done.
Qed.
Lemma sub_ok m x start n : slice_fits m x -> 0 <= start -> 0 <= n -> start + n < 2 ^ 64 ->
  match sub m x start n with
  | Ok y => start + n <= length_ x /\ slice_fits m y /\ view m y = take (Z.to_nat n) (drop (Z.to_nat start) (view m x)) /\ size y = size x
  | Die => length_ x < start + n
  | _ => False
  end.
Proof.
  intros (H1 & H2 & H3) Hs Hn Hw. unfold sub. rewrite wrap_small by (unfold is_u; lia).
  destruct (Z.leb_spec (start + n) (length_ x)) as [L|L]; [|cbn; lia]. cbn [mbind res_bind assert_].
  destruct (data_ x) as [[b o]|] eqn:D.
  - destruct H3 as (bl & E & Ho & Hb). rewrite (ptr_add_ok _ _ _ _ _ bl) by (done || nia). cbn [mbind res_bind].
    split_and!; try done.
    + unfold slice_fits. cbn. split_and!; try done. exists bl. split_and!; try done; nia.
    + unfold view. cbn. rewrite D, E. cbn [default from_option id]. rewrite <-(elements_sub _ (Z.to_nat (length_ x))) by lia. rewrite drop_drop. rewrite to_nat_lin by lia. done.
  - assert (start = 0) as -> by lia. assert (n = 0) as -> by lia. cbn. split_and!; done.
Qed.
Lemma to_bytes_ok m x : slice_fits m x -> slice_fits m (to_bytes x) /\ view m (to_bytes x) = map (fun b => [b]) (concat (view m x)) /\
  bytes x = Z.of_nat (length (concat (view m x))).
Proof.
  intros (H1 & H2 & H3). destruct (data_ x) as [[b o]|] eqn:D.
  - destruct H3 as (bl & E & Ho & Hb). assert (0 <= length_ x * size x < 2 ^ 64) as W by nia. unfold slice_fits, to_bytes, bytes. cbn. rewrite D, wrap_small by done.
    unfold view. rewrite D. cbn. rewrite E. cbn [default from_option id].
    assert (Z.to_nat (length_ x) * Z.to_nat (size x) <= length (drop (Z.to_nat o) bl))%nat by (rewrite drop_length; nia).
    assert (Z.to_nat (length_ x * size x) = Z.to_nat (length_ x) * Z.to_nat (size x))%nat as X by nia.
    split_and!; try lia.
    + exists bl. split_and!; try done; lia.
    + rewrite concat_elements, X by done. rewrite elements_bytes by done. done.
    + rewrite concat_elements, take_length by done. lia.
  - unfold slice_fits, to_bytes, bytes, view. cbn. rewrite D, H3. done.
Qed.

(** *** Writing *)
Lemma write_view m b o block x s' : m !! b = Some block -> 0 <= o -> o + Z.of_nat (length x) <= Z.of_nat (length block) -> slice_fits m s' ->
  (forall i, covers s' b i -> ~ (o <= i < o + Z.of_nat (length x))) ->
  view (<[b := take (Z.to_nat o) block ++ x ++ drop (Z.to_nat o + length x)%nat block]> m) s' = view m s'.
Proof.
  intros E Ho Hb (H1 & H2 & H3) D. unfold view. destruct (data_ s') as [[c p]|] eqn:Ed; [|done]. destruct (decide (c = b)) as [->|Ne].
  - rewrite list_lookup_insert by (eapply lookup_lt_Some; eauto). rewrite E. cbn [default from_option id].
    destruct H3 as (bl & E' & Hp & Hl). assert (bl = block) as -> by congruence. apply elements_elsewhere; [nia|lia|].
    intros i Hi. specialize (D (Z.of_nat i)). intros HH. apply D; [|lia]. exists p. split; [done|]. nia.
  - by rewrite list_lookup_insert_ne.
Qed.
Lemma set_ok m x k e : slice_fits m x -> 0 <= k -> Z.of_nat (length e) = size x ->
  match (p ← at_ m x k; store m p e) with
  | Ok m' => k < length_ x /\ same_shape m m' /\ length m' = length m /\ view m' x = <[Z.to_nat k := e]> (view m x) /\
     (forall y, slice_fits m y ->
       (forall b o i, data_ x = Some (b, o) -> covers y b i -> ~ (o + k * size x <= i < o + k * size x + size x)) -> view m' y = view m y) /\
     (forall b o, data_ x = Some (b, o) -> exists block, m !! b = Some block /\ 0 <= o + k * size x /\ o + k * size x + size x <= Z.of_nat (length block) /\
       m' = <[b := take (Z.to_nat (o + k * size x)) block ++ e ++ drop (Z.to_nat (o + k * size x) + length e)%nat block]> m)
  | Die => length_ x <= k
  | _ => False
  end.
Proof.
  intros F Hk He. unfold at_. destruct (Z.ltb_spec k (length_ x)) as [L|L]; [|done]. cbn [mbind res_bind assert_].
  destruct (view_at m x k F) as (b & o & bl & D & E & B1 & B2 & B3 & B4 & Vw); [lia|]. rewrite D.
  destruct (F) as (F1 & F2 & F3). rewrite (ptr_add_ok _ _ _ _ _ bl) by (done || lia). cbn [mbind res_bind].
  rewrite (store_ok _ _ _ bl) by (done || lia).
  assert (o + length_ x * size x <= Z.of_nat (length bl)) as B5 by done.
  split_and!; try done.
  - apply (same_shape_insert _ _ bl); [done|]. apply written_length. lia.
  - by rewrite insert_length.
  - unfold view. rewrite D. rewrite list_lookup_insert by (eapply lookup_lt_Some; eauto). rewrite E. cbn [default from_option id].
    rewrite <-elements_write by (rewrite ?drop_length; nia). f_equal.
    rewrite to_nat_lin by lia.
    rewrite drop_app_le by (rewrite take_length; nia). rewrite take_drop_commute. f_equal. f_equal. rewrite drop_drop. f_equal. lia.
  - intros y Fy Dy. apply write_view; [done|lia|lia|done|]. intros i Ci. rewrite He. by eapply Dy.
  - intros b' o' [= <- <-]. exists bl. split_and!; try done; lia.
Qed.
Close Scope Z_scope.
