(** Proofs about VecModel. *)
From Verif Require Import Slots VecModel VecSpec.

Section proofs.
  Context {T : Type}.
  Implicit Types (v : vec T) (l : list T).

  Notation lives l := (Live <$> l) (only parsing).

  Lemma insert_middle {A} (pre post : list A) (i : nat) (x y : A) :
    i = length pre -> <[i:=y]> (pre ++ x :: post) = pre ++ y :: post.
  Proof.
    intros ->. replace (length pre) with (length pre + 0) by lia.
    rewrite insert_app_r. reflexivity.
  Qed.

  Lemma destroy_loop_spec l : forall pre post i,
    i = length pre ->
    destroy_loop (pre ++ lives l ++ post) i (length l)
    = Ok (pre ++ replicate (length l) Raw ++ post, l).
  Proof.
    induction l as [|x l IH]; intros pre post i Hi; cbn [destroy_loop length fmap list_fmap].
    { reflexivity. }
    cbn [app]. rewrite (m_destroy_live _ _ x).
    2:{ rewrite list_lookup_middle by done. reflexivity. }
    cbn [mbind res_bind]. rewrite insert_middle by done.
    replace (pre ++ Raw :: lives l ++ post) with ((pre ++ [Raw]) ++ lives l ++ post)
      by (rewrite <- app_assoc; reflexivity).
    rewrite IH by (rewrite app_length; cbn; lia).
    cbn [mbind res_bind replicate]. rewrite <- app_assoc. reflexivity.
  Qed.

  Lemma fill_loop_spec (d : T) n : forall pre post i,
    i = length pre ->
    fill_loop (pre ++ replicate n Raw ++ post) i n d
    = Ok (pre ++ lives (replicate n d) ++ post).
  Proof.
    induction n as [|n IH]; intros pre post i Hi; cbn [fill_loop replicate].
    { reflexivity. }
    cbn [app]. rewrite m_construct_ok.
    2:{ rewrite list_lookup_middle by done. reflexivity. }
    cbn [mbind res_bind]. rewrite insert_middle by done.
    replace (pre ++ Live d :: replicate n Raw ++ post)
      with ((pre ++ [Live d]) ++ replicate n Raw ++ post) by (rewrite <- app_assoc; reflexivity).
    rewrite IH by (rewrite app_length; cbn; lia).
    rewrite <- app_assoc. reflexivity.
  Qed.

  Lemma move_loop_spec l : forall spre spost dpre dpost i,
    i = length spre -> i = length dpre ->
    move_loop (spre ++ lives l ++ spost) (dpre ++ replicate (length l) Raw ++ dpost) i (length l)
    = Ok (spre ++ replicate (length l) Husk ++ spost, dpre ++ lives l ++ dpost).
  Proof.
    induction l as [|x l IH]; intros spre spost dpre dpost i H1 H2;
      cbn [move_loop length fmap list_fmap replicate].
    { reflexivity. }
    cbn [app]. rewrite (m_take_ok _ _ x).
    2:{ rewrite list_lookup_middle by done. reflexivity. }
    cbn [mbind res_bind]. rewrite m_construct_ok.
    2:{ rewrite list_lookup_middle by done. reflexivity. }
    cbn [mbind res_bind]. rewrite !insert_middle by done.
    replace (spre ++ Husk :: lives l ++ spost) with ((spre ++ [Husk]) ++ lives l ++ spost)
      by (rewrite <- app_assoc; reflexivity).
    replace (dpre ++ Live x :: replicate (length l) Raw ++ dpost)
      with ((dpre ++ [Live x]) ++ replicate (length l) Raw ++ dpost)
      by (rewrite <- app_assoc; reflexivity).
    rewrite IH by (rewrite app_length; cbn; lia).
    rewrite <- !app_assoc. reflexivity.
  Qed.

  Lemma copy_loop_spec l : forall spre spost dpre dpost i,
    i = length spre -> i = length dpre ->
    copy_loop (spre ++ lives l ++ spost) (dpre ++ replicate (length l) Raw ++ dpost) i (length l)
    = Ok (dpre ++ lives l ++ dpost).
  Proof.
    induction l as [|x l IH]; intros spre spost dpre dpost i H1 H2;
      cbn [copy_loop length fmap list_fmap replicate].
    { reflexivity. }
    cbn [app]. rewrite (m_read_ok _ _ x).
    2:{ rewrite list_lookup_middle by done. reflexivity. }
    cbn [mbind res_bind]. rewrite m_construct_ok.
    2:{ rewrite list_lookup_middle by done. reflexivity. }
    cbn [mbind res_bind]. rewrite !insert_middle by done.
    replace (spre ++ Live x :: lives l ++ spost) with ((spre ++ [Live x]) ++ lives l ++ spost)
      by (rewrite <- app_assoc; reflexivity).
    replace (dpre ++ Live x :: replicate (length l) Raw ++ dpost)
      with ((dpre ++ [Live x]) ++ replicate (length l) Raw ++ dpost)
      by (rewrite <- app_assoc; reflexivity).
    rewrite IH by (rewrite app_length; cbn; lia).
    rewrite <- !app_assoc. reflexivity.
  Qed.

  Lemma read_loop_spec l : forall pre post i,
    i = length pre ->
    read_loop (pre ++ lives l ++ post) i (length l) = Ok l.
  Proof.
    induction l as [|x l IH]; intros pre post i Hi; cbn [read_loop length fmap list_fmap].
    { reflexivity. }
    cbn [app]. rewrite (m_read_ok _ _ x).
    2:{ rewrite list_lookup_middle by done. reflexivity. }
    cbn [mbind res_bind].
    replace (pre ++ Live x :: lives l ++ post) with ((pre ++ [Live x]) ++ lives l ++ post)
      by (rewrite <- app_assoc; reflexivity).
    rewrite IH by (rewrite app_length; cbn; lia). reflexivity.
  Qed.

  (** The vector [v] holds exactly the list [l]. *)
  Definition vrep v l : Prop :=
    data_ v = lives l ++ replicate (capacity_ v - length l) Raw /\
    length_ v = length l /\ length l <= capacity_ v.

  Lemma vrep_eta v l : vrep v l ->
    v = mk_vec (lives l ++ replicate (capacity_ v - length l) Raw) (length l) (capacity_ v).
  Proof. destruct v as [m n c]. intros (H1 & H2 & H3). cbn in *. congruence. Qed.

  Lemma vrep_mk l c :
    length l <= c ->
    vrep (mk_vec (lives l ++ replicate (c - length l) Raw) (length l) c) l.
  Proof. intros. split; [|split]; done. Qed.

  Lemma vrep_with_capacity c : vrep (vec_with_capacity c) [].
  Proof. split; [|split]; cbn; [|done|lia]. rewrite Nat.sub_0_r. reflexivity. Qed.

  Lemma vrep_empty : vrep vec_empty [].
  Proof. split; [|split]; cbn; [|done|lia]. reflexivity. Qed.

  Lemma m_free_nolive (h r : nat) :
    m_free (T:=T) (replicate h Husk ++ replicate r Raw) = Ok tt.
  Proof.
    apply m_free_ok. intros i x Hx.
    apply elem_of_list_lookup_2 in Hx.
    apply elem_of_app in Hx as [Hx|Hx]; apply elem_of_replicate in Hx as [? _]; discriminate.
  Qed.

  Lemma m_free_raw (r : nat) : m_free (T:=T) (replicate r Raw) = Ok tt.
  Proof. apply (m_free_nolive 0 r). Qed.

  Lemma vec_reserve_spec v l n : vrep v l ->
    exists v', vec_reserve v n = Ok v' /\ vrep v' l /\ capacity_ v' = Nat.max (capacity_ v) n.
  Proof.
    intros H. rewrite (vrep_eta _ _ H). destruct H as (_ & _ & Hle).
    set (c := capacity_ v) in *. unfold vec_reserve. cbn [data_ length_ capacity_].
    destruct (Nat.leb_spec n c) as [Hn|Hn].
    { eexists. split; [reflexivity|]. split; [by apply vrep_mk|]. cbn. lia. }
    pose proof (move_loop_spec l [] (replicate (c - length l) Raw) []
      (replicate (n - length l) Raw) 0 eq_refl eq_refl) as Hm.
    cbn [app] in Hm. rewrite <- replicate_add in Hm.
    replace (length l + (n - length l)) with n in Hm by lia.
    unfold m_alloc. rewrite Hm. cbn [mbind res_bind].
    rewrite m_free_nolive. cbn [mbind res_bind].
    eexists. split; [reflexivity|]. split; [|cbn; lia].
    apply vrep_mk. lia.
  Qed.

  Lemma vec_grow_spec v l : vrep v l ->
    exists v', vec_grow v = Ok v' /\ vrep v' l /\
      capacity_ v' = match capacity_ v with 0 => 8 | c => 2 * c end.
  Proof.
    intros H. unfold vec_grow.
    destruct (vec_reserve_spec v l (match capacity_ v with 0 => 8 | c => 2 * c end) H)
      as (v' & E & R & C).
    exists v'. split; [exact E|]. split; [exact R|]. rewrite C.
    destruct (capacity_ v); lia.
  Qed.

  Definition cap_after_push v : nat :=
    if vec_full v then match capacity_ v with 0 => 8 | c => 2 * c end else capacity_ v.

  Lemma vec_push_spec v l x : vrep v l ->
    exists v', vec_push v x = Ok v' /\ vrep v' (l ++ [x]) /\ capacity_ v' = cap_after_push v.
  Proof.
    intros H. unfold vec_push, cap_after_push.
    assert (exists v1, (if vec_full v then vec_grow v else Ok v) = Ok v1 /\ vrep v1 l /\
      capacity_ v1 = (if vec_full v then match capacity_ v with 0 => 8 | c => 2 * c end else capacity_ v) /\
      length l < capacity_ v1) as (v1 & -> & R1 & C1 & L1).
    { unfold vec_full. destruct H as (H1 & H2 & H3).
      destruct (Nat.eqb_spec (length_ v) (capacity_ v)) as [E|E].
      - destruct (vec_grow_spec v l) as (v1 & E1 & R1 & C1); [by split|].
        exists v1. split; [done|]. split; [done|]. split; [done|].
        rewrite C1. destruct (capacity_ v); lia.
      - exists v. split; [done|]. split; [by split|]. split; [done|]. lia. }
    cbn [mbind res_bind]. rewrite (vrep_eta _ _ R1). cbn [length_ capacity_ data_].
    rewrite C1 in *.
    set (c := if vec_full v then _ else _) in *.
    destruct (Nat.ltb_spec (length l) c) as [_|?]; [|lia].
    cbn [assert_ mbind res_bind].
    replace (c - length l) with (S (c - length (l ++ [x]))) by (rewrite app_length; cbn; lia).
    cbn [replicate]. rewrite m_construct_ok.
    2:{ rewrite list_lookup_middle; [done|]. by rewrite fmap_length. }
    cbn [mbind res_bind]. rewrite insert_middle by (by rewrite fmap_length).
    eexists. split; [reflexivity|]. split; [|done].
    replace (S (length l)) with (length (l ++ [x])) by (rewrite app_length; cbn; lia).
    replace (lives l ++ Live x :: replicate (c - length (l ++ [x])) Raw)
      with (lives (l ++ [x]) ++ replicate (c - length (l ++ [x])) Raw)
      by (rewrite fmap_app, <- app_assoc; reflexivity).
    apply vrep_mk. rewrite app_length; cbn; lia.
  Qed.

  Lemma vrep_lookup v l i x : vrep v l -> l !! i = Some x -> data_ v !! i = Some (Live x).
  Proof.
    intros (-> & _ & _) Hi. apply lookup_app_l_Some. rewrite list_lookup_fmap, Hi. reflexivity.
  Qed.

  Lemma vec_read_spec v l i x : vrep v l -> l !! i = Some x -> m_read (data_ v) i = Ok x.
  Proof. intros H Hi. apply m_read_ok. eapply vrep_lookup; eauto. Qed.

  Lemma vec_clear_spec v l : vrep v l ->
    exists v', vec_clear v = Ok (v', l) /\ vrep v' [] /\ capacity_ v' = capacity_ v.
  Proof.
    intros H. rewrite (vrep_eta _ _ H). destruct H as (_ & _ & Hle).
    set (c := capacity_ v) in *. unfold vec_clear. cbn [data_ length_ capacity_].
    pose proof (destroy_loop_spec l [] (replicate (c - length l) Raw) 0 eq_refl) as Hd.
    cbn [app] in Hd. rewrite Hd. cbn [mbind res_bind].
    eexists. split; [reflexivity|]. split; [|done].
    rewrite <- replicate_add. replace (length l + (c - length l)) with (c - length (@nil T)) by (cbn; lia).
    apply (vrep_mk [] c). cbn. lia.
  Qed.

  Lemma vec_destroy_spec v l : vrep v l -> vec_destroy v = Ok (vec_empty, l).
  Proof.
    intros H. rewrite (vrep_eta _ _ H). destruct H as (_ & _ & Hle).
    set (c := capacity_ v) in *. unfold vec_destroy. cbn [data_ length_ capacity_].
    pose proof (destroy_loop_spec l [] (replicate (c - length l) Raw) 0 eq_refl) as Hd.
    cbn [app] in Hd. rewrite Hd. cbn [mbind res_bind].
    rewrite <- replicate_add, m_free_raw. reflexivity.
  Qed.

  Lemma vec_clone_spec v l : vrep v l ->
    exists v', vec_clone v = Ok v' /\ vrep v' l /\ capacity_ v' = capacity_ v.
  Proof.
    intros H. rewrite (vrep_eta _ _ H). destruct H as (_ & _ & Hle).
    set (c := capacity_ v) in *. unfold vec_clone. cbn [data_ length_ capacity_].
    pose proof (copy_loop_spec l [] (replicate (c - length l) Raw) []
      (replicate (c - length l) Raw) 0 eq_refl eq_refl) as Hm.
    cbn [app] in Hm. rewrite <- replicate_add in Hm.
    replace (length l + (c - length l)) with c in Hm by lia.
    unfold m_alloc. rewrite Hm. cbn [mbind res_bind].
    eexists. split; [reflexivity|]. split; [|done]. by apply vrep_mk.
  Qed.

  Lemma vec_resize_spec (d : T) v l n : vrep v l ->
    exists v', vec_resize d v n = Ok (v', drop n l) /\
      vrep v' (take n l ++ replicate (n - length l) d) /\ capacity_ v' = Nat.max (capacity_ v) n.
  Proof.
    intros H. unfold vec_resize.
    destruct (vec_reserve_spec v l n H) as (v1 & -> & R1 & C1). cbn [mbind res_bind].
    rewrite (vrep_eta _ _ R1). destruct R1 as (_ & _ & L1).
    rewrite C1 in *. set (c := Nat.max _ n) in *.
    cbn [data_ length_ capacity_].
    destruct (Nat.ltb_spec (length l) n) as [Hn|Hn].
    - replace (c - length l) with ((n - length l) + (c - n)) by lia.
      rewrite replicate_add.
      pose proof (fill_loop_spec d (n - length l) (lives l) (replicate (c - n) Raw) (length l)
        ltac:(by rewrite fmap_length)) as Hf.
      rewrite Hf. cbn [mbind res_bind]. eexists. split.
      { rewrite drop_ge by lia. reflexivity. }
      split; [|done]. rewrite take_ge by lia.
      assert (n = length (l ++ replicate (n - length l) d)) as Hlen
        by (rewrite app_length, replicate_length; lia).
      split; [|split]; cbn [data_ length_ capacity_]; rewrite <- ?Hlen; [|done|lia].
      rewrite fmap_app, <- app_assoc. reflexivity.
    - replace (length l - n) with (length (drop n l)) by (rewrite drop_length; lia).
      assert (lives l ++ replicate (c - length l) Raw =
        lives (take n l) ++ lives (drop n l) ++ replicate (c - length l) Raw) as ->.
      { rewrite app_assoc, <- fmap_app, take_drop. reflexivity. }
      rewrite destroy_loop_spec by (rewrite fmap_length, take_length; lia).
      cbn [mbind res_bind]. eexists. split; [reflexivity|]. split; [|done].
      replace (n - length l) with 0 by lia. cbn [replicate]. rewrite app_nil_r.
      split; [|split]; cbn [data_ length_ capacity_]; rewrite take_length; [|lia|lia].
      f_equal. rewrite <- replicate_add. f_equal. rewrite drop_length. lia.
  Qed.

  Lemma vec_make_spec (d : T) n :
    exists v', vec_make d n = Ok v' /\ vrep v' (replicate n d) /\ capacity_ v' = n.
  Proof.
    unfold vec_make. pose proof (fill_loop_spec d n [] [] 0 eq_refl) as Hf.
    cbn [app] in Hf. rewrite !app_nil_r in Hf. unfold m_alloc. rewrite Hf.
    cbn [mbind res_bind]. eexists. split; [reflexivity|]. split; [|done].
    split; [|split]; cbn [data_ length_ capacity_]; rewrite replicate_length; [|done|done].
    rewrite Nat.sub_diag. cbn. by rewrite app_nil_r.
  Qed.

  Lemma vec_pop_spec v l x : vrep v (l ++ [x]) ->
    exists v', vec_pop v = Ok (v', [x]) /\ vrep v' l /\ capacity_ v' = capacity_ v.
  Proof.
    intros H. rewrite (vrep_eta _ _ H). destruct H as (_ & _ & Hle).
    set (c := capacity_ v) in *. unfold vec_pop. cbn [data_ length_ capacity_].
    rewrite app_length in *. cbn [length] in *.
    destruct (Nat.ltb_spec 0 (length l + 1)); [|lia]. cbn [assert_ mbind res_bind].
    rewrite fmap_app, <- app_assoc. cbn [fmap list_fmap app].
    rewrite (m_destroy_live _ _ x).
    2:{ rewrite list_lookup_middle; [done|]. rewrite fmap_length. lia. }
    cbn [mbind res_bind]. rewrite insert_middle by (rewrite fmap_length; lia).
    eexists. split; [reflexivity|]. split; [|done].
    split; [|split]; cbn [data_ length_ capacity_]; [|lia|lia].
    f_equal. replace (c - length l) with (S (c - (length l + 1))) by lia. reflexivity.
  Qed.

  Lemma vec_set_spec v l i x y : vrep v l -> l !! i = Some y ->
    exists v', vec_set v i x = Ok (v', [y]) /\ vrep v' (<[i:=x]> l) /\ capacity_ v' = capacity_ v.
  Proof.
    intros H Hi. unfold vec_set.
    pose proof (lookup_lt_Some _ _ _ Hi) as Hlt.
    pose proof H as (Hd & Hn & Hc).
    rewrite Hn. destruct (Nat.ltb_spec i (length l)); [|lia]. cbn [assert_ mbind res_bind].
    rewrite (m_assign_live _ _ _ y) by (eapply vrep_lookup; eauto).
    cbn [mbind res_bind]. eexists. split; [reflexivity|]. split; [|done].
    split; [|split]; cbn [data_ length_ capacity_]; rewrite insert_length; [|done|done].
    rewrite Hd. rewrite insert_app_l by (by rewrite fmap_length).
    by rewrite list_fmap_insert.
  Qed.

  Lemma last_removelast l x : last l = Some x -> l = removelast l ++ [x].
  Proof.
    intros H. destruct (decide (l = [])) as [->|Hne]; [discriminate|].
    destruct (exists_last Hne) as (l' & a & ->).
    rewrite last_snoc in H. inversion H; subst.
    by rewrite removelast_last.
  Qed.

  Lemma assert_ge (a b : nat) : b <= a -> assert_ (a <? b) = Die.
  Proof. intros. unfold assert_. destruct (Nat.ltb_spec a b); [lia|done]. Qed.
  Lemma assert_lt (a b : nat) : a < b -> assert_ (a <? b) = Ok tt.
  Proof. intros. unfold assert_. destruct (Nat.ltb_spec a b); [done|lia]. Qed.

  (** One step refines the list specification. *)
  Lemma vec_step_spec (d : T) v l o : vrep v l ->
    match list_step d l o with
    | Some (l', out, ds) =>
        exists v', vec_step d v o = Ok (v', out, ds) /\ vrep v' l' /\
          (o <> VReplaceByClone -> capacity_ v <= capacity_ v')
    | None => vec_step d v o = Die
    end.
  Proof.
    intros H. pose proof H as (Hd & Hn & Hc).
    destruct o; cbn [list_step vec_step mbind option_bind].
    - destruct (vec_push_spec v l x H) as (v' & -> & R & C). cbn.
      eexists. split; [reflexivity|]. split; [done|]. intros _. rewrite C.
      unfold cap_after_push. destruct (vec_full v); [|done]. destruct (capacity_ v); lia.
    - destruct (l !! i) as [x|] eqn:Hi; cbn [mbind option_bind].
      + rewrite Hn, assert_lt by (by eapply lookup_lt_Some). cbn [mbind res_bind].
        unfold vec_push_own. rewrite (vec_read_spec v l i x H Hi). cbn [mbind res_bind].
        destruct (vec_push_spec v l x H) as (v' & -> & R & C). cbn.
        eexists. split; [reflexivity|]. split; [done|]. intros _. rewrite C.
        unfold cap_after_push. destruct (vec_full v); [|done]. destruct (capacity_ v); lia.
      + rewrite Hn, assert_ge by (by apply lookup_ge_None_1). reflexivity.
    - destruct (last l) as [x|] eqn:Hl; cbn [mbind option_bind].
      + pose proof (last_removelast _ _ Hl) as E. rewrite E in H.
        destruct (vec_pop_spec v _ x H) as (v' & -> & R & C). cbn.
        eexists. split; [reflexivity|]. split; [done|]. intros _. lia.
      + apply last_None in Hl. subst l. unfold vec_pop. rewrite Hn. reflexivity.
    - destruct (vec_clear_spec v l H) as (v' & -> & R & C). cbn. eexists. split; [reflexivity|].
      split; [done|]. lia.
    - destruct (vec_reserve_spec v l n H) as (v' & -> & R & C). cbn. eexists. split; [reflexivity|].
      split; [done|]. lia.
    - destruct (vec_grow_spec v l H) as (v' & -> & R & C). cbn. eexists. split; [reflexivity|].
      split; [done|]. rewrite C. destruct (capacity_ v); lia.
    - destruct (vec_resize_spec d v l n H) as (v' & -> & R & C). cbn. eexists. split; [reflexivity|].
      split; [done|]. lia.
    - unfold vec_extend. rewrite Hn.
      destruct (vec_resize_spec d v l (length l + n) H) as (v' & -> & R & C). cbn.
      rewrite drop_ge by lia. eexists. split; [reflexivity|].
      rewrite take_ge in R by lia. replace (length l + n - length l) with n in R by lia.
      split; [done|]. lia.
    - destruct (l !! i) as [y|] eqn:Hi; cbn [mbind option_bind].
      + destruct (vec_set_spec v l i x y H Hi) as (v' & -> & R & C). cbn.
        eexists. split; [reflexivity|]. split; [done|]. lia.
      + unfold vec_set. rewrite Hn, assert_ge by (by apply lookup_ge_None_1). reflexivity.
    - destruct (vec_clone_spec v l H) as (c & -> & R & C). cbn [mbind res_bind].
      unfold vec_move_assign. rewrite (vec_destroy_spec v l H). cbn.
      eexists. split; [reflexivity|]. split; [done|]. intros []. done.
    - unfold vec_get. rewrite Hn.
      destruct (l !! i) as [x|] eqn:Hi; cbn [mbind option_bind].
      + rewrite assert_lt by (by eapply lookup_lt_Some). cbn [mbind res_bind].
        rewrite (vec_read_spec v l i x H Hi). cbn. eexists. split; [reflexivity|]. split; [done|]. lia.
      + rewrite assert_ge by (by apply lookup_ge_None_1). reflexivity.
    - unfold vec_front. rewrite Hn. destruct l as [|x l']; cbn [head mbind option_bind length].
      + reflexivity.
      + rewrite assert_lt by lia. cbn [mbind res_bind].
        rewrite (vec_read_spec v (x :: l') 0 x H eq_refl). cbn.
        eexists. split; [reflexivity|]. split; [done|]. lia.
    - unfold vec_back. rewrite Hn. destruct (last l) as [x|] eqn:Hl; cbn [mbind option_bind].
      + rewrite last_lookup in Hl. assert (0 < length l).
        { apply lookup_lt_Some in Hl. lia. }
        rewrite assert_lt by lia. cbn [mbind res_bind].
        rewrite (vec_read_spec v l (length l - 1) x H).
        2:{ rewrite <- Hl. f_equal. lia. }
        cbn. eexists. split; [reflexivity|]. split; [done|]. lia.
      + apply last_None in Hl. subst l. reflexivity.
    - rewrite Hn. eexists. split; [reflexivity|]. split; [done|]. lia.
    - unfold vec_is_empty. rewrite Hn. eexists. split; [|split; [done|lia]].
      destruct l; reflexivity.
    - unfold vec_iterate. rewrite Hn, Hd.
      pose proof (read_loop_spec l [] (replicate (capacity_ v - length l) Raw) 0 eq_refl) as E.
      cbn [app] in E. rewrite E. cbn. eexists. split; [reflexivity|]. split; [done|]. lia.
  Qed.

  Lemma vec_run_spec (d : T) os : forall v l, vrep v l ->
    match list_run d l os with
    | Some (l', outs, ds) => exists v', vec_run d v os = Ok (v', outs, ds) /\ vrep v' l'
    | None => vec_run d v os = Die
    end.
  Proof.
    induction os as [|o os IH]; intros v l H; cbn [list_run vec_run].
    { exists v. done. }
    pose proof (vec_step_spec d v l o H) as Hs.
    destruct (list_step d l o) as [[[l1 out] ds]|]; cbn [mbind option_bind].
    - destruct Hs as (v1 & -> & R1 & _). cbn [mbind res_bind].
      specialize (IH v1 l1 R1). destruct (list_run d l1 os) as [[[l2 outs] ds']|].
      + destruct IH as (v2 & -> & R2). cbn. eauto.
      + rewrite IH. reflexivity.
    - rewrite Hs. reflexivity.
  Qed.

  (** Accounting at the level of the specification. *)
  Lemma list_step_account (d : T) l o l' out ds :
    list_step d l o = Some (l', out, ds) ->
    l ++ list_created d l o ≡ₚ l' ++ ds.
  Proof.
    destruct o; cbn; intros E;
      repeat match type of E with
        | context [l !! ?i] => destruct (l !! i) as [y|] eqn:Hi; cbn in *; [|discriminate]
        | context [last l] => destruct (last l) as [y|] eqn:Hl; cbn in *; [|discriminate]
        | context [head l] => destruct (head l) as [y|] eqn:Hh; cbn in *; [|discriminate]
        end; injection E as <- <- <-; rewrite ?app_nil_r; try reflexivity.
    - rewrite <- (last_removelast _ _ Hl). done.
    - rewrite <- app_assoc, (Permutation_app_comm (replicate _ _)), app_assoc, take_drop. done.
    - rewrite (Permutation_app_comm l), (Permutation_app_comm (<[i:=x]> l)). cbn.
      rewrite <- (take_drop_middle _ _ _ Hi) at 1.
      rewrite insert_take_drop by (by eapply lookup_lt_Some).
      rewrite <- !Permutation_middle. constructor.
  Qed.

  Lemma list_run_account (d : T) os : forall l l' outs ds,
    list_run d l os = Some (l', outs, ds) ->
    l ++ list_run_created d l os ≡ₚ l' ++ ds.
  Proof.
    induction os as [|o os IH]; intros l l' outs ds E; cbn in *.
    { injection E as <- <- <-. by rewrite !app_nil_r. }
    destruct (list_step d l o) as [[[l1 out] ds1]|] eqn:Es; cbn in *; [|discriminate].
    destruct (list_run d l1 os) as [[[l2 outs2] ds2]|] eqn:Er; cbn in *; [|discriminate].
    injection E as <- <- <-.
    pose proof (list_step_account _ _ _ _ _ _ Es) as A1.
    pose proof (IH _ _ _ _ Er) as A2.
    rewrite app_assoc, A1. rewrite <- app_assoc.
    rewrite (Permutation_app_comm ds1), app_assoc, A2.
    rewrite <- !app_assoc, (Permutation_app_comm ds2). done.
  Qed.

  (** Stack *)
  Lemma stack_step_lifo (d : T) v s o : vrep v (reverse s) ->
    match lifo_step s o with
    | Some (s', out) => exists v' ds, stack_step d v o = Ok (v', out, ds) /\ vrep v' (reverse s')
    | None => stack_step d v o = Die
    end.
  Proof.
    intros H. destruct o; cbn [lifo_step stack_step].
    - destruct (vec_step_spec d v _ (VPush x) H) as (v' & E & R & _).
      eexists _, _. split; [exact E|]. by rewrite reverse_cons.
    - pose proof (vec_step_spec d v _ VPop H) as E. cbn [list_step] in E.
      destruct s as [|x s']; [exact E|].
      rewrite reverse_cons, last_snoc in E. cbn [mbind option_bind] in E.
      rewrite removelast_last in E. destruct E as (v' & E & R & _). eauto.
    - destruct (vec_step_spec d v _ VClear H) as (v' & E & R & _). eauto.
    - pose proof (vec_step_spec d v _ VBack H) as E. cbn [list_step] in E.
      destruct s as [|x s']; [exact E|].
      rewrite reverse_cons, last_snoc in E. cbn [mbind option_bind] in E.
      destruct E as (v' & E & R & _). rewrite <- reverse_cons in R. eauto.
    - destruct (vec_step_spec d v _ VLength H) as (v' & E & R & _).
      rewrite reverse_length in E. eauto.
    - destruct (vec_step_spec d v _ VEmpty H) as (v' & E & R & _).
      eexists _, _. split; [|exact R]. rewrite E. do 4 f_equal.
      apply bool_decide_ext. split.
      + intros Hr. apply (f_equal reverse) in Hr. by rewrite reverse_involutive in Hr.
      + intros ->. done.
    - destruct (vec_step_spec d v _ VIterate H) as (v' & E & R & _). eauto.
  Qed.

  Lemma stack_run_lifo (d : T) os : forall v s, vrep v (reverse s) ->
    match lifo_run s os with
    | Some (s', outs) => exists v' ds, stack_run d v os = Ok (v', outs, ds) /\ vrep v' (reverse s')
    | None => stack_run d v os = Die
    end.
  Proof.
    induction os as [|o os IH]; intros v s H; cbn [lifo_run stack_run].
    { eauto. }
    pose proof (stack_step_lifo d v s o H) as Hs.
    destruct (lifo_step s o) as [[s1 out]|]; cbn [mbind option_bind].
    - destruct Hs as (v1 & ds & -> & R1). cbn [mbind res_bind].
      specialize (IH v1 s1 R1). destruct (lifo_run s1 os) as [[s2 outs]|]; cbn.
      + destruct IH as (v2 & ds2 & -> & R2). cbn. eauto.
      + rewrite IH. reflexivity.
    - rewrite Hs. reflexivity.
  Qed.

  (** Growth: [c] capacity, [n] length, [k] elements moved so far. *)
  Definition grown (c n k : nat) : Prop :=
    (c = 0 /\ n = 0 /\ k = 0) \/ (c = k + 8 /\ n <= c /\ (c = 8 \/ c + 2 <= 2 * n)).

  Lemma grown_push v l k : vrep v l -> grown (capacity_ v) (length l) k ->
    grown (cap_after_push v) (S (length l)) (k + push_moves v).
  Proof.
    intros (_ & Hn & Hc) G. unfold cap_after_push, push_moves, vec_full. rewrite Hn.
    destruct (Nat.eqb_spec (length l) (capacity_ v)) as [E|E].
    - rewrite E in *. destruct G as [(-> & _ & ->)|(E1 & _ & E3)].
      + right. lia.
      + right. destruct (capacity_ v) as [|c] eqn:Ec; [lia|].
        replace (2 * S c) with (S c + S c) in * by lia. lia.
    - right. destruct G as [(E1 & E2 & ->)|(E1 & E2 & E3)]; [lia|].
      split; [lia|]. split; [lia|]. destruct E3; lia.
  Qed.

  Lemma push_all_moves_spec xs : forall v l k,
    vrep v l -> grown (capacity_ v) (length l) k ->
    exists v' k', push_all_moves v xs = Ok (v', k') /\ vrep v' (l ++ xs) /\
      grown (capacity_ v') (length l + length xs) (k + k').
  Proof.
    induction xs as [|x xs IH]; intros v l k H G; cbn [push_all_moves].
    { exists v, 0. rewrite app_nil_r. split; [done|]. split; [done|]. cbn. by rewrite !Nat.add_0_r. }
    destruct (vec_push_spec v l x H) as (v1 & -> & R1 & C1). cbn [mbind res_bind].
    pose proof (grown_push v l k H G) as G1. rewrite <- C1 in G1.
    destruct (IH v1 (l ++ [x]) (k + push_moves v) R1) as (v2 & k2 & -> & R2 & G2).
    { rewrite app_length. cbn. by rewrite Nat.add_1_r. }
    cbn [mbind res_bind]. exists v2, (push_moves v + k2). split; [done|].
    rewrite <- app_assoc in R2. split; [exact R2|].
    rewrite app_length in G2. cbn [length] in *.
    replace (length l + S (length xs)) with (length l + 1 + length xs) by lia.
    by rewrite Nat.add_assoc.
  Qed.

  Lemma push_all_moves_bound xs v k :
    push_all_moves vec_empty xs = Ok (v, k) ->
    k <= 2 * length xs /\ capacity_ v <= Nat.max 8 (2 * length xs) /\ length xs <= capacity_ v.
  Proof.
    destruct (push_all_moves_spec xs vec_empty [] 0 vrep_empty) as (v' & k' & -> & R & G).
    { left. done. }
    intros E. injection E as <- <-. cbn in G.
    destruct R as (_ & _ & R). cbn in R. split; [|split; [|done]].
    - destruct G as [G|G]; lia.
    - destruct G as [G|G]; lia.
  Qed.

  Lemma push_all_moves_push_all xs : forall v,
    push_all v xs = '(v', _) ← push_all_moves v xs; Ok v'.
  Proof.
    induction xs as [|x xs IH]; intros v; cbn [push_all push_all_moves]; [done|].
    destruct (vec_push v x) as [v1| | |]; cbn [mbind res_bind]; try done.
    rewrite IH. destruct (push_all_moves v1 xs) as [[? ?]| | |]; done.
  Qed.

  Lemma vec_of_spec xs : exists v, vec_of xs = Ok v /\ vrep v xs.
  Proof.
    unfold vec_of.
    destruct (vec_reserve_spec vec_empty [] (length xs) vrep_empty) as (v & -> & R & _).
    cbn [mbind res_bind].
    assert (forall ys v l, vrep v l -> exists v', push_all v ys = Ok v' /\ vrep v' (l ++ ys)) as Hp.
    { clear. induction ys as [|y ys IH]; intros v l H; cbn [push_all].
      - exists v. by rewrite app_nil_r.
      - destruct (vec_push_spec v l y H) as (v1 & -> & R1 & _). cbn [mbind res_bind].
        destruct (IH v1 _ R1) as (v2 & -> & R2). rewrite <- app_assoc in R2. eauto. }
    exact (Hp xs v [] R).
  Qed.

  Lemma vec_emplace_own_full v l i : vrep v l -> length l = capacity_ v ->
    vec_emplace_own v i = UB.
  Proof.
    intros H E. unfold vec_emplace_own. pose proof H as (_ & Hn & _).
    unfold vec_full. rewrite Hn, E, Nat.eqb_refl.
    destruct (vec_grow_spec v l H) as (v1 & -> & (R1 & R2 & R3) & C1). cbn [mbind res_bind].
    rewrite R2, assert_lt; [done|]. rewrite C1, E. destruct (capacity_ v); lia.
  Qed.

  Lemma vec_emplace_own_spare v l i x : vrep v l -> length l < capacity_ v -> l !! i = Some x ->
    exists v', vec_emplace_own v i = Ok v' /\ vrep v' (l ++ [x]).
  Proof.
    intros H E Hi. pose proof H as (_ & Hn & _).
    destruct (vec_push_spec v l x H) as (v' & Ep & R & _).
    exists v'. split; [|done]. rewrite <- Ep.
    unfold vec_emplace_own, vec_push, vec_full. rewrite Hn.
    destruct (Nat.eqb_spec (length l) (capacity_ v)); [lia|]. cbn [mbind res_bind].
    rewrite Hn, !assert_lt by lia. cbn [mbind res_bind].
    rewrite (vec_read_spec v l i x H Hi). reflexivity.
  Qed.

  Lemma vrep_contents v l l' : vrep v l -> vrep v l' -> l = l'.
  Proof.
    intros (D & N & _) (D' & N' & _).
    pose proof (read_loop_spec l [] (replicate (capacity_ v - length l) Raw) 0 eq_refl) as E.
    pose proof (read_loop_spec l' [] (replicate (capacity_ v - length l') Raw) 0 eq_refl) as E'.
    cbn [app] in E, E'. rewrite <- D in E. rewrite <- D' in E'.
    rewrite <- N, N' in E. rewrite E' in E. by injection E.
  Qed.
End proofs.
