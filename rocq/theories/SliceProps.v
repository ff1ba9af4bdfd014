(** C61: slices and arrays. *)
From Verif Require Import Word SliceModel SliceSpec SliceProofs.
Open Scope Z_scope.

Lemma arr_slice_fits m b a : array_fits m b a -> slice_fits m (arr_slice b a).
Proof. intros (H1 & H2 & H3 & bl & E & L). unfold slice_fits, arr_slice. cbn. split_and!; [done|lia|]. exists bl. split_and!; try done; lia. Qed.
Lemma array_list_view m b a : array_list m b a = view m (arr_slice b a).
Proof. unfold array_list, view. cbn. done. Qed.
Lemma view_agree m m' x : (forall b o, data_ x = Some (b, o) -> m' !! b = m !! b) -> view m' x = view m x.
Proof. intros H. unfold view. destruct (data_ x) as [[b o]|]; [|done]. by rewrite (H b o). Qed.
Lemma view_app m l x : slice_fits m x -> view (m ++ [l]) x = view m x.
Proof.
  intros (_ & _ & H). apply view_agree. intros b o D. rewrite D in H. destruct H as (bl & E & _). apply lookup_app_l. by eapply lookup_lt_Some.
Qed.
Lemma elem_lookup_some (l : list elem) k : 0 <= k < count l -> l !! Z.to_nat k = Some (element l k).
Proof. intros H. unfold element, count in *. destruct (lookup_lt_is_Some_2 l (Z.to_nat k)) as [x E]; [lia|]. by rewrite E. Qed.

  Lemma element_size m x k : slice_fits m x -> 0 <= k < length_ x -> Z.of_nat (length (element (view m x) k)) = size x.
  Proof.
    intros F Hk. destruct (view_at m x k F Hk) as (b & o & bl & D & E & B1 & B2 & B3 & B4 & <-). rewrite take_length, drop_length. destruct F as (F1 & _). lia.
  Qed.
  (** *** What the lists of arrays and views become *)
  Lemma arrays_mem s m' : fits s -> (forall b, b < length (arrays s) -> forall r, arrays s !! b = Some r -> array_list m' b r = array_list (mem s) b r)%nat ->
    imap (array_list m') (arrays s) = arrays_seen s.
  Proof.
    intros F H. unfold arrays_seen. apply list_eq. intros i. rewrite !list_lookup_imap. destruct (arrays s !! i) as [r|] eqn:E; [|done]. cbn. f_equal.
    apply H; [by eapply lookup_lt_Some|done].
  Qed.
  Lemma arrays_app s l r x : fits s -> array_list (mem s ++ [l]) (length (mem s)) r = x ->
    imap (array_list (mem s ++ [l])) (arrays s ++ [r]) = arrays_seen s ++ [x].
  Proof.
    intros F <-. rewrite imap_app. f_equal.
    - apply arrays_mem; [done|]. intros b Hb r' _. unfold array_list. rewrite lookup_app_l by (rewrite <-(f_len _ F); done). done.
    - cbn. rewrite Nat.add_0_r, (f_len _ F). done.
  Qed.
  Lemma views_mem (f g : slice -> list elem) (xs : list slice) : (forall x, x ∈ xs -> f x = g x) -> map f xs = map g xs.
  Proof. intros H. apply map_ext_in. intros x Hx. apply H. by apply elem_of_list_In. Qed.
  Lemma A_lookup s a r : arrays s !! a = Some r -> A s a = array_list (mem s) a r.
  Proof. intros E. unfold A, arrays_seen. rewrite list_lookup_imap, E. done. Qed.
  Lemma V_lookup s i x : slices s !! i = Some x -> V s i = view (mem s) x.
  Proof. intros E. unfold V, views. rewrite list_lookup_fmap, E. done. Qed.
  Lemma A_count s a r : fits s -> arrays s !! a = Some r -> count (A s a) = N r.
  Proof. intros F E. rewrite (A_lookup _ _ _ E), array_list_view. rewrite view_count; [done|]. apply arr_slice_fits. exact (f_arr _ F _ _ E). Qed.
  Lemma V_count s i x : fits s -> slices s !! i = Some x -> count (V s i) = length_ x.
  Proof. intros F E. rewrite (V_lookup _ _ _ E). apply view_count. exact (f_slc _ F _ _ E). Qed.
  Lemma nil_count (l : list elem) : l = [] <-> count l = 0.
  Proof. unfold count. destruct l; cbn; [done|]. split; [done|lia]. Qed.
Section props.
  Variable cl : elem -> elem.
  Hypothesis cl_size : forall x, length (cl x) = length x.

  Lemma clone_each_ok a b b' n : b <> b' -> forall i m, array_fits m b a -> array_fits m b' a -> 0 <= i -> i + Z.of_nat n = N a ->
    exists m', clone_each cl m a b b' i n = Ok m' /\ same_shape m m' /\ length m' = length m /\ (forall c, c <> b' -> m' !! c = m !! c) /\
      array_list m' b' a = take (Z.to_nat i) (array_list m b' a) ++ map cl (drop (Z.to_nat i) (array_list m b a)).
  Proof using cl_size.
    intros Nb. induction n as [|n IH]; intros i m F F' Hi HN.
    - exists m. split_and!; try done. { intros c bl E. by exists bl. }
      assert (forall c, length (array_list m c a) = Z.to_nat i) as L by (intros c; unfold array_list; rewrite elements_length; f_equal; lia).
      rewrite take_ge by (by rewrite L). rewrite (drop_ge (array_list m b a)) by (by rewrite L). by rewrite app_nil_r.
    - cbn [clone_each]. pose proof (arr_slice_fits _ _ _ F) as SF. pose proof (arr_slice_fits _ _ _ F') as SF'.
      pose proof (get_ok m (arr_slice b a) i SF Hi) as G. unfold at_ in G. cbn [length_ arr_slice size data_] in G.
      rewrite (proj2 (Z.ltb_lt _ _)) in G by lia. cbn [assert_ mbind res_bind] in G.
      destruct (ptr_add m (asize a) (Some (b, 0)) i) as [src| | |]; try done. cbn [mbind res_bind] in G |- *. rewrite G. cbn [mbind res_bind].
      pose proof (element_size m (arr_slice b a) i SF ltac:(cbn; lia)) as Sz. rewrite <-array_list_view in *. set (e := element (array_list m b a) i) in *.
      pose proof (set_ok m (arr_slice b' a) i (cl e) SF' Hi ltac:(cbn; rewrite cl_size; apply Sz)) as S.
      change (arr_at m b' a i) with (at_ m (arr_slice b' a) i). destruct (at_ m (arr_slice b' a) i) as [dst| | |]; try done; [|cbn in S; lia].
      cbn [mbind res_bind] in S |- *. destruct (store m dst (cl e)) as [m1| | |]; try done; [|cbn in S; lia]. cbn [mbind res_bind].
      destruct S as (_ & Sh & Ln & Vw & _ & Mm). destruct (Mm b' 0 eq_refl) as (blk & Eb & _ & _ & Em). rewrite <-!array_list_view in Vw.
      assert (forall c, c <> b' -> m1 !! c = m !! c) as O by (intros c Hc; rewrite Em; by rewrite list_lookup_insert_ne by done).
      destruct (IH (i + 1) m1) as (m' & -> & Sh' & Ln' & O' & Vw'); [by eapply array_fits_shape| by eapply array_fits_shape|lia|lia|].
      exists m'. split_and!; [done| |lia| |].
      + intros c bl E. destruct (Sh _ _ E) as (bl1 & E1 & L1). destruct (Sh' _ _ E1) as (bl2 & E2 & L2). exists bl2. split; [done|lia].
      + intros c Hc. rewrite O', O by done. done.
      + rewrite Vw', Vw. assert (array_list m1 b a = array_list m b a) as -> by (unfold array_list; by rewrite O by done).
        replace (Z.to_nat (i + 1)) with (S (Z.to_nat i)) by lia.
        assert (length (array_list m b' a) = Z.to_nat (N a)) as L' by (unfold array_list; by rewrite elements_length).
        assert (count (array_list m b a) = N a) as L by (unfold count, array_list; rewrite elements_length; lia).
        rewrite (take_S_r _ _ (cl e)) by (apply list_lookup_insert; lia). rewrite take_insert by lia. rewrite <-app_assoc. f_equal.
        rewrite (drop_S _ e (Z.to_nat i)); [done|]. apply elem_lookup_some. lia.
  Qed.
  Lemma arr_clone_ok t m b a : array_fits m b a -> exists l,
    arr_clone t cl m b a = Ok (m ++ [l]) /\ array_fits (m ++ [l]) (length m) a /\
    array_list (m ++ [l]) (length m) a = (if t then array_list m b a else map cl (array_list m b a)).
  Proof using cl_size.
    intros F. destruct (F) as (H1 & H2 & H3 & bl & E & L). unfold arr_clone.
    set (z := replicate (Z.to_nat (asize a * N a)) 0). set (m0 := m ++ [z]).
    assert (length z = Z.to_nat (asize a * N a)) as Lz by (unfold z; by rewrite replicate_length).
    assert (b <> length m) as Nb by (apply lookup_lt_Some in E; lia).
    assert (m0 !! b = Some bl) as E0 by (by apply lookup_app_l_Some).
    assert (m0 !! length m = Some z) as E1 by (unfold m0; by apply list_lookup_middle).
    destruct t.
    - rewrite (load_ok _ _ _ _ bl) by (done || lia). cbn [mbind res_bind]. rewrite drop_0, take_ge by lia.
      rewrite (store_ok _ _ _ z) by (done || lia). exists bl. assert (<[length m := take (Z.to_nat 0) z ++ bl ++ drop (Z.to_nat 0 + length bl)%nat z]> m0 = m ++ [bl]) as ->.
      { rewrite (drop_ge z) by (rewrite Lz; lia). cbn [Z.to_nat take app]. rewrite app_nil_r. unfold m0. rewrite insert_app_r_alt by lia. rewrite Nat.sub_diag. done. }
      split; [done|]. assert ((m ++ [bl]) !! length m = Some bl) as E2 by (by apply list_lookup_middle). split.
      + unfold array_fits. split_and!; try done. by exists bl.
      + unfold array_list. by rewrite E2, E.
    - destruct (clone_each_ok a b (length m) (Z.to_nat (N a)) Nb 0 m0) as (m' & -> & Sh & Ln & O & Vw).
      + eapply array_fits_shape; [apply same_shape_app|done].
      + unfold array_fits. split_and!; try done. exists z. split; [done|]. lia.
      + lia.
      + lia.
      + assert (exists l, m' = m ++ [l]) as (l & ->).
        { destruct (Sh _ _ E1) as (l & El & _). exists l. apply list_eq. intros c. destruct (decide (c = length m)) as [->|Nc].
          - rewrite El. symmetry. by apply list_lookup_middle.
          - rewrite O by done. unfold m0. destruct (decide (c < length m)%nat); [by rewrite !lookup_app_l by done|]. rewrite !lookup_ge_None_2; [done|rewrite app_length; cbn; lia..]. }
        exists l. split_and!; [done| |].
        * destruct (Sh _ _ E1) as (l' & El & Ll). unfold array_fits. split_and!; try done. exists l'. split; [done|]. lia.
        * rewrite Vw. cbn [Z.to_nat]. rewrite take_0, drop_0. cbn [app]. f_equal. unfold array_list. by rewrite E0, E.
  Qed.

End props.

Lemma at_ptr m y b q k : slice_fits m y -> data_ y = Some (b, q) -> 0 <= k < length_ y -> at_ m y k = Ok (Some (b, q + k * size y)).
Proof.
  intros F D Hk. destruct (view_at m y k F Hk) as (b' & q' & bl & D' & E & B1 & B2 & B3 & B4 & _). rewrite D in D'. injection D' as <- <-.
  unfold at_. rewrite (proj2 (Z.ltb_lt _ _)) by lia. cbn [assert_ mbind res_bind]. rewrite D. destruct F as (F & _). apply (ptr_add_ok _ _ _ _ _ bl); [done|lia].
Qed.
(** What storing [x] at byte [p] of block [b] does to a view *)
Lemma store_view m b p x m' y : store m (Some (b, p)) x = Ok m' -> slice_fits m y ->
  (forall k q, data_ y = Some (b, q) -> size y = Z.of_nat (length x) -> p = q + k * size y -> 0 <= k < length_ y -> view m' y = <[Z.to_nat k := x]> (view m y)) /\
  ((forall i, covers y b i -> ~ p <= i < p + Z.of_nat (length x)) -> view m' y = view m y).
Proof.
  intros S F. split.
  - intros k q D Sz -> Hk. pose proof (set_ok m y k x F (proj1 Hk) (eq_sym Sz)) as W. rewrite (at_ptr _ _ _ _ _ F D Hk) in W. cbn [mbind res_bind] in W. rewrite S in W. tauto.
  - unfold store in S. destruct (m !! b) as [bl|] eqn:E; [|done]. destruct (_ && _) eqn:B; [|done]. injection S as <-.
    apply andb_prop in B. destruct B as [B1 B2]. apply Z.leb_le in B1, B2. intros D. by apply write_view.
Qed.
Lemma store_shape m b p x m' : store m (Some (b, p)) x = Ok m' -> same_shape m m' /\ length m' = length m /\ forall c, c <> b -> m' !! c = m !! c.
Proof.
  intros S. unfold store in S. destruct (m !! b) as [bl|] eqn:E; [|done]. destruct (_ && _) eqn:B; [|done]. injection S as <-.
  apply andb_prop in B. destruct B as [B1 B2]. apply Z.leb_le in B1, B2. split_and!.
  - apply (same_shape_insert _ _ bl); [done|]. apply written_length. lia.
  - by rewrite insert_length.
  - intros c Hc. by rewrite list_lookup_insert_ne.
Qed.

(** One operation in a state that fits *)
Definition step_good (cl : elem -> elem) (s : st) (o : op) : Prop :=
  match step cl s o with
  | Ok (s', r) => ~ stops s o /\ answer s o r /\ fits s' /\
      (forall b p x, target s o = Some (b, p, x) -> store (mem s) (Some (b, p)) x = Ok (mem s') /\ arrays s' = arrays s /\ slices s' = slices s) /\
      (~ writes o -> arrays_seen s' = arrays_after cl s o /\ views s' = views s ++ new_view s o)
  | Die => stops s o
  | _ => False
  end.
Lemma views_same s l : fits s -> map (view (mem s ++ [l])) (slices s) = views s ++ [].
Proof. intros F. rewrite app_nil_r. apply views_mem. intros x Hx. apply elem_of_list_lookup in Hx. destruct Hx as [i E]. apply view_app. exact (f_slc _ F _ _ E). Qed.
Lemma views_add s x v : view (mem s) x = v -> views (add_slice s x) = views s ++ [v].
Proof. intros <-. unfold views, add_slice. cbn. by rewrite map_app. Qed.

Local Ltac parts := split_and!; try done; try (by intros []).
Lemma step_ok cl s o : (forall x, length (cl x) = length x) -> fits s -> typed s o -> small o -> step_good cl s o.
Proof.
  intros C F T Sm. unfold step_good. destruct o; cbn [step typed small stops answer target writes arrays_after new_view] in *; unfold arr, slc in *.
  - destruct T as (T1 & T2 & T3). parts.
    + apply fits_new; [done|]. unfold array_fits. cbn [asize N]. parts; try lia. exists (x ++ concat xs). split; [by apply list_lookup_middle|].
      change (x ++ concat xs) with (concat (x :: xs)). clear -T2. induction T2 as [|y ys E _ IH]; [cbn; lia|]. cbn [concat length]. rewrite app_length, !Nat2Z.inj_add, IH, E. cbn [length]. lia.
    + intros _. split; [|apply (views_same s _ F)]. apply arrays_app; [done|]. unfold array_list. cbn [asize N].
      rewrite (list_lookup_middle (mem s) [] _ (length (mem s))) by done. cbn [default from_option id]. rewrite Nat2Z.id, <-(app_nil_r (concat _)). apply elements_concat.
      eapply Forall_impl; [exact T2|]. cbn. intros y Hy. lia.
  - destruct T as [T1 T2]. destruct (lookup_lt_is_Some_2 _ _ T1) as [r E]. rewrite E. cbn [mbind res_bind]. rewrite (A_count _ _ _ F E).
    pose proof (get_ok (mem s) (arr_slice a r) i (arr_slice_fits _ _ _ (f_arr _ F _ _ E)) (proj1 T2)) as G. unfold at_ in G. cbn [length_ arr_slice size data_] in G.
    unfold arr_at. destruct (Z.ltb_spec i (N r)); cbn [assert_ mbind res_bind] in *; [|done].
    destruct (ptr_add (mem s) (asize r) (Some (a, 0)) i); try done. cbn [mbind res_bind] in *. rewrite G. cbn [mbind res_bind].
    parts; [lia| |]. { by rewrite (A_lookup _ _ _ E), array_list_view. } { intros _. by rewrite app_nil_r. }
  - destruct T as (T1 & r & E & T2). rewrite E. cbn [mbind res_bind]. rewrite (A_count _ _ _ F E).
    pose proof (arr_slice_fits _ _ _ (f_arr _ F _ _ E)) as SF. change (arr_at (mem s) a r i) with (at_ (mem s) (arr_slice a r) i).
    destruct (decide (i < N r)) as [L|L].
    + pose proof (set_ok (mem s) (arr_slice a r) i x SF (proj1 T1) T2) as W. pose proof (at_ptr _ _ a 0 i SF eq_refl ltac:(cbn; destruct T1; lia)) as Ea. rewrite Ea in W |- *.
      cbn [mbind res_bind arr_slice size] in *. rewrite Z.add_0_l in *. destruct (store (mem s) _ x) as [m'| | |] eqn:Es; try done; try (cbn in W; lia). cbn [mbind res_bind].
      destruct W as (_ & Sh & Ln & _). parts; [lia|by apply fits_mem|]. intros b p x' [= <- <- <-]. done.
    + unfold at_. cbn. rewrite (proj2 (Z.ltb_ge _ _)) by lia. cbn. lia.
  - destruct (lookup_lt_is_Some_2 _ _ T) as [r E]. rewrite E. cbn [mbind res_bind]. destruct (arr_clone_ok cl C trivial (mem s) a r (f_arr _ F _ _ E)) as (l & -> & Fl & El).
    cbn [mbind res_bind]. parts; [by apply fits_new|]. intros _. split; [|apply (views_same s _ F)]. apply arrays_app; [done|]. rewrite El.
    by rewrite (A_lookup _ _ _ E).
  - destruct (lookup_lt_is_Some_2 _ _ T) as [r E]. rewrite E. cbn [mbind res_bind]. pose proof (arr_slice_fits _ _ _ (f_arr _ F _ _ E)) as SF.
    parts; [by apply fits_add|]. intros _. split; [done|]. apply views_add. by rewrite (A_lookup _ _ _ E), array_list_view.
  - parts; [apply fits_add; [done|]; unfold slice_fits; cbn; parts|]. intros _. split; [done|]. by apply views_add.
  - destruct T as (T1 & T2 & T3). destruct (lookup_lt_is_Some_2 _ _ T1) as [x E]. rewrite E. cbn [mbind res_bind]. rewrite (V_count _ _ _ F E), (V_lookup _ _ _ E).
    pose proof (sub_ok (mem s) x start length (f_slc _ F _ _ E) (proj1 T2) (proj1 T3) Sm) as W. destruct (sub (mem s) x start length) as [y| | |]; try done. cbn [mbind res_bind].
    destruct W as (W1 & W2 & W3 & W4). parts; [lia|by apply fits_add|]. intros _. split; [done|]. by apply views_add.
  - destruct (lookup_lt_is_Some_2 _ _ T) as [x E]. rewrite E. cbn [mbind res_bind]. pose proof (f_slc _ F _ _ E) as SF.
    parts; [by apply fits_add|]. intros _. split; [done|]. apply views_add. by rewrite (V_lookup _ _ _ E).
  - destruct (lookup_lt_is_Some_2 _ _ T) as [x E]. rewrite E. cbn [mbind res_bind]. destruct (to_bytes_ok _ _ (f_slc _ F _ _ E)) as (B1 & B2 & B3).
    parts; [by apply fits_add|]. intros _. split; [done|]. apply views_add. by rewrite (V_lookup _ _ _ E).
  - destruct T as [T1 T2]. destruct (lookup_lt_is_Some_2 _ _ T1) as [x E]. rewrite E. cbn [mbind res_bind]. rewrite (V_count _ _ _ F E), (V_lookup _ _ _ E).
    pose proof (get_ok (mem s) x i (f_slc _ F _ _ E) (proj1 T2)) as G. unfold at_ in *. destruct (Z.ltb_spec i (length_ x)); cbn [assert_ mbind res_bind] in *; [|done].
    destruct (ptr_add (mem s) (size x) (data_ x) i); try done. cbn [mbind res_bind] in *. rewrite G. cbn [mbind res_bind].
    parts; [lia|]. intros _. by rewrite app_nil_r.
  - destruct T as (T1 & y & E & T2). rewrite E. cbn [mbind res_bind]. rewrite (V_count _ _ _ F E). pose proof (f_slc _ F _ _ E) as SF.
    destruct (decide (i < length_ y)) as [L|L].
    + pose proof (set_ok (mem s) y i x SF (proj1 T1) T2) as W. destruct (view_at _ y i SF) as (b & o & bl & D & _); [split; [apply T1|done]|].
      pose proof (at_ptr _ _ _ _ i SF D ltac:(destruct T1; lia)) as Ea. rewrite Ea in W |- *.
      cbn [mbind res_bind] in *. destruct (store (mem s) _ x) as [m'| | |] eqn:Es; try done; try (cbn in W; lia). cbn [mbind res_bind].
      destruct W as (_ & Sh & Ln & _). parts; [lia|by apply fits_mem|]. intros b' p x' Ex. cbn in Ex. rewrite D in Ex. cbn in Ex. injection Ex as <- <- <-. done.
    + unfold at_. rewrite (proj2 (Z.ltb_ge _ _)) by lia. cbn. lia.
  - destruct (lookup_lt_is_Some_2 _ _ T) as [x E]. rewrite E. cbn [mbind res_bind]. pose proof (V_count _ _ _ F E) as Cn.
    pose proof (get_ok (mem s) x 0 (f_slc _ F _ _ E) ltac:(lia)) as G. unfold at_, front in *. destruct (Z.ltb_spec 0 (length_ x)); cbn [assert_ mbind res_bind] in *.
    2:{ apply nil_count. rewrite Cn. destruct (f_slc _ F _ _ E) as (_ & ? & _). lia. }
    destruct (ptr_add (mem s) (size x) (data_ x) 0); try done. cbn [mbind res_bind] in *. rewrite G. cbn [mbind res_bind].
    assert (V s s0 <> []) as NE by (intros Q; apply nil_count in Q; lia).
    parts; [|intros _; by rewrite app_nil_r]. rewrite <-(V_lookup _ _ _ E), element_head. destruct (V s s0); done.
  - destruct (lookup_lt_is_Some_2 _ _ T) as [x E]. rewrite E. cbn [mbind res_bind]. pose proof (V_count _ _ _ F E) as Cn. pose proof (f_slc _ F _ _ E) as SF.
    unfold back. destruct (Z.ltb_spec 0 (length_ x)) as [L|L]; cbn [assert_ mbind res_bind] in *.
    2:{ apply nil_count. rewrite Cn. destruct SF as (_ & ? & _). lia. }
    assert (length_ x < 2 ^ 64) as Hl. { destruct SF as (S1 & S2 & S3). destruct (data_ x) as [[b o]|]; [|lia]. destruct S3 as (bl & _ & S3 & S4). nia. }
    rewrite wrap_small by (unfold is_u; lia).
    pose proof (get_ok (mem s) x (length_ x - 1) SF ltac:(lia)) as G. unfold at_ in G. rewrite (proj2 (Z.ltb_lt _ _)) in G by lia. cbn [assert_ mbind res_bind] in G.
    destruct (ptr_add (mem s) (size x) (data_ x) (length_ x - 1)); try done. cbn [mbind res_bind] in *. rewrite G. cbn [mbind res_bind].
    assert (V s s0 <> []) as NE by (intros Q; apply nil_count in Q; lia).
    parts; [|intros _; by rewrite app_nil_r]. rewrite <-Cn, <-(V_lookup _ _ _ E), element_last by done. destruct (last (V s s0)) eqn:El; [done|]. by apply last_None in El.
  - destruct (lookup_lt_is_Some_2 _ _ T) as [x E]. rewrite E. cbn [mbind res_bind]. rewrite (V_count _ _ _ F E). parts. intros _. by rewrite app_nil_r.
  - destruct (lookup_lt_is_Some_2 _ _ T) as [x E]. rewrite E. cbn [mbind res_bind]. parts; [|intros _; by rewrite app_nil_r].
    pose proof (V_count _ _ _ F E) as Cn. unfold is_empty. f_equal. case_bool_decide as Q.
    + apply nil_count in Q. apply Z.eqb_eq. lia.
    + apply Z.eqb_neq. intros Z0. apply Q, nil_count. lia.
  - destruct (lookup_lt_is_Some_2 _ _ T) as [x E]. rewrite E. cbn [mbind res_bind]. destruct (to_bytes_ok _ _ (f_slc _ F _ _ E)) as (B1 & B2 & B3).
    parts; [|intros _; by rewrite app_nil_r]. rewrite B3. by rewrite (V_lookup _ _ _ E).
  - destruct (lookup_lt_is_Some_2 _ _ T) as [x E]. rewrite E. cbn [mbind res_bind]. rewrite (elements_ok _ _ (f_slc _ F _ _ E)). cbn [mbind res_bind].
    parts; [|intros _; by rewrite app_nil_r]. by rewrite (V_lookup _ _ _ E).
Qed.

Lemma reach_fits cl s : (forall x, length (cl x) = length x) -> reach cl s -> fits s.
Proof.
  intros C. induction 1 as [|s o s' r R IH T Sm E].
  - split; [done|by intros ? ?..].
  - pose proof (step_ok cl s o C IH T Sm) as G. unfold step_good in G. rewrite E in G. tauto.
Qed.

(** ** C61 *)
(** Whatever a well-typed program has done so far, as long as start + length never exceeded 64 bits in a sub(): the next
    operation is defined; it stops the program exactly when an index or a range is outside; otherwise it returns what
    the lists say, a new slice shows exactly the elements asked for, and nothing else changes. *)
Theorem slice_step : forall cl s o, (forall x, length (cl x) = length x) -> reach cl s -> typed s o -> small o ->
  (stops s o /\ step cl s o = Die) \/
  (~ stops s o /\ exists s' r, step cl s o = Ok (s', r) /\ answer s o r /\
     (~ writes o -> arrays_seen s' = arrays_after cl s o /\ views s' = views s ++ new_view s o)).
Proof.
  intros cl s o C R T Sm. pose proof (step_ok cl s o C (reach_fits _ _ C R) T Sm) as G. unfold step_good in G.
  destruct (step cl s o) as [[s' r]| | |]; try done; [|by left]. right. destruct G as (G1 & G2 & _ & _ & G3). split; [done|]. exists s', r. done.
Qed.
(** A write changes the element it names in every slice and array that shares it and leaves all else as it was. *)
Theorem slice_write : forall cl s o s' r b p x, (forall x, length (cl x) = length x) -> reach cl s -> typed s o ->
  step cl s o = Ok (s', r) -> target s o = Some (b, p, x) ->
  (forall j y, slices s !! j = Some y ->
     (forall k q, data_ y = Some (b, q) -> size y = Z.of_nat (length x) -> p = q + k * size y -> 0 <= k < length_ y -> V s' j = <[Z.to_nat k := x]> (V s j)) /\
     ((forall i, covers y b i -> ~ p <= i < p + Z.of_nat (length x)) -> V s' j = V s j)) /\
  (forall k c, arrays s !! b = Some c -> asize c = Z.of_nat (length x) -> p = k * asize c -> 0 <= k < N c -> A s' b = <[Z.to_nat k := x]> (A s b)) /\
  (forall a, a <> b -> A s' a = A s a) /\
  length (views s') = length (views s) /\ length (arrays_seen s') = length (arrays_seen s).
Proof.
  intros cl s o s' r b p x C R T E Et. assert (small o) as Sm by (by destruct o). pose proof (reach_fits _ _ C R) as F.
  pose proof (step_ok cl s o C F T Sm) as G. unfold step_good in G. rewrite E in G. destruct G as (_ & _ & _ & G & _). destruct (G _ _ _ Et) as (S & Ea & Es).
  destruct (store_shape _ _ _ _ _ S) as (Sh & Ln & O). split_and!.
  - intros j y Ey. rewrite (V_lookup s j y Ey), (V_lookup s' j y) by (by rewrite Es). apply store_view; [done|]. exact (f_slc _ F _ _ Ey).
  - intros k c Ec Sz Hp Hk. rewrite (A_lookup s b c Ec), (A_lookup s' b c) by (by rewrite Ea). rewrite !array_list_view.
    apply (store_view _ _ _ _ _ _ S (arr_slice_fits _ _ _ (f_arr _ F _ _ Ec))) with (q := 0); done.
  - intros a Ha. unfold A, arrays_seen. rewrite !list_lookup_imap, Ea. destruct (arrays s !! a); [|done]. cbn. unfold array_list. by rewrite O.
  - unfold views. by rewrite !map_length, Es.
  - unfold arrays_seen. by rewrite !imap_length, Ea.
Qed.
(** In particular through the slice itself and through the array's own index *)
Theorem slice_write_read : forall cl s s' r i k x, (forall x, length (cl x) = length x) -> reach cl s ->
  (typed s (Set_ i k x) -> step cl s (Set_ i k x) = Ok (s', r) -> V s' i = <[Z.to_nat k := x]> (V s i)) /\
  (typed s (ArrSet i k x) -> step cl s (ArrSet i k x) = Ok (s', r) -> A s' i = <[Z.to_nat k := x]> (A s i)).
Proof.
  intros cl s s' r i k x C R. pose proof (reach_fits _ _ C R) as F. split; intros T E.
  - pose proof (step_ok cl s _ C F T I) as G. unfold step_good in G. rewrite E in G. destruct G as (G & _). cbn in G, T. destruct T as (T1 & y & Ey & T2).
    pose proof (f_slc _ F _ _ Ey) as SF. rewrite (V_count _ _ _ F Ey) in G. assert (0 <= k < length_ y) as Hk by (destruct T1; lia).
    destruct (view_at _ y k SF Hk) as (b & q & bl & D & _).
    apply (slice_write cl s (Set_ i k x) s' r b (q + k * size y) x) with (j := i) (y := y) (k := k) (q := q); try done.
    + cbn. eauto.
    + cbn. rewrite Ey. cbn. by rewrite D.
  - pose proof (step_ok cl s _ C F T I) as G. unfold step_good in G. rewrite E in G. destruct G as (G & _). cbn in G, T. destruct T as (T1 & y & Ey & T2).
    rewrite (A_count _ _ _ F Ey) in G. assert (0 <= k < N y) as Hk by (destruct T1; lia).
    apply (slice_write cl s (ArrSet i k x) s' r i (k * asize y) x) with (c := y) (k := k); try done.
    + cbn. eauto.
    + cbn. by rewrite Ey.
Qed.

(** An array of three 2-byte elements, a slice of its last two, the bytes of that, a write through the slice *)
Definition demo : list op := [New 2 [1; 2] [[3; 4]; [5; 6]]; ArrSlice 0; Sub 0 1 2; ToBytes 1; Set_ 1 0 [7; 8]; Set_ 2 3 [9]; ArrClone 0 false].
Example slice_example :
  exists s, run id init demo = Ok s /\ arrays_seen s = [[[1; 2]; [7; 8]; [5; 9]]; [[1; 2]; [7; 8]; [5; 9]]] /\
    views s = [[[1; 2]; [7; 8]; [5; 9]]; [[7; 8]; [5; 9]]; [[7]; [8]; [5]; [9]]] /\ step id s (Get 1 2) = Die /\ step id s (Sub 1 1 2) = Die.
Proof. eexists. split; [vm_compute; reflexivity|]. by vm_compute. Qed.
Example slice_premises : exists s, reach id s /\ views s = [[[1; 2]; [3; 4]; [5; 6]]; [[3; 4]; [5; 6]]] /\ typed s (Set_ 1 0 [7; 8]) /\
  target s (Set_ 1 0 [7; 8]) = Some (0%nat, 2, [7; 8]).
Proof.
  exists (St [[1; 2; 3; 4; 5; 6]] [Array 2 3] [Slice 2 (Some (0%nat, 0)) 3; Slice 2 (Some (0%nat, 2)) 2]). split.
  - apply (reach_step _ (St [[1; 2; 3; 4; 5; 6]] [Array 2 3] [Slice 2 (Some (0%nat, 0)) 3]) (Sub 0 1 2) _ Nothing); [|by vm_compute..].
    apply (reach_step _ (St [[1; 2; 3; 4; 5; 6]] [Array 2 3] []) (ArrSlice 0) _ Nothing); [| |done|by vm_compute]; [|cbn; lia].
    apply (reach_step _ init (New 2 [1; 2] [[3; 4]; [5; 6]]) _ Nothing); [constructor| |done|done]. cbn. split_and!; [lia|by repeat constructor|lia].
  - split_and!; [done| |done]. cbn. split; [unfold is_u64; lia|]. eauto.
Qed.

(** Without the bound on start + length: the sum wraps, the check passes, and the "sub-slice" reaches elements that the
    slice does not have, and memory that no array has. *)
Theorem slice_sub_refuted : forall cl, exists s s' s'',
  reach cl s /\ views s = [[[10]; [20]; [30]; [40]]; [[10]; [20]]] /\ typed s (Sub 1 2 (2 ^ 64 - 1)) /\
  step cl s (Sub 1 2 (2 ^ 64 - 1)) = Ok (s', Nothing) /\
  step cl s' (Get 2 0) = Ok (s'', Elem [30]) /\ step cl s' (Get 2 2) = UB.
Proof.
  intros cl. pose (a := [Array 1 4]). pose (m := [[10; 20; 30; 40]]).
  exists (St m a [Slice 1 (Some (0%nat, 0)) 4; Slice 1 (Some (0%nat, 0)) 2]).
  exists (St m a [Slice 1 (Some (0%nat, 0)) 4; Slice 1 (Some (0%nat, 0)) 2; Slice 1 (Some (0%nat, 2)) (2 ^ 64 - 1)]). eexists. split_and!.
  - apply (reach_step _ (St m a [Slice 1 (Some (0%nat, 0)) 4]) (Sub 0 0 2) _ Nothing); [|by vm_compute..].
    apply (reach_step _ (St m a []) (ArrSlice 0) _ Nothing); [| |done|by vm_compute]; [|cbn; lia].
    apply (reach_step _ init (New 1 [10] [[20]; [30]; [40]]) _ Nothing); [constructor| |done|done]. cbn. split_and!; [lia|by repeat constructor|lia].
  - by vm_compute.
  - cbn. unfold is_u64. lia.
  - by vm_compute.
  - by vm_compute.
  - by vm_compute.
Qed.

Print Assumptions slice_step.
Print Assumptions slice_write.
Print Assumptions slice_write_read.
Print Assumptions slice_sub_refuted.
Close Scope Z_scope.
