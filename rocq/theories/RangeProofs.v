(** Pointer-level reasoning: the headers form a doubly linked list in address
    order and one doubly linked free list per bucket. *)
From stdpp Require Import gmap.
From Verif Require Import Word MathModel MathProofs RangeModel RangeSpec.
Open Scope Z_scope.

(** ** Doubly linked segments *)
Definition links := nat -> option (option nat * option nat).
Definition hd (l : list nat) (aft : option nat) : option nat := match l with [] => aft | q :: _ => Some q end.
Definition lst (bef : option nat) (l : list nat) : option nat := match last l with Some q => Some q | None => bef end.
Fixpoint seg (L : links) (bef : option nat) (l : list nat) (aft : option nat) : Prop :=
  match l with
  | [] => True
  | p :: l' => L p = Some (bef, hd l' aft) /\ seg L (Some p) l' aft
  end.

Lemma hd_app l1 l2 aft : hd (l1 ++ l2) aft = hd l1 (hd l2 aft).
Proof. by destruct l1. Qed.
Lemma lst_cons bef p l : lst bef (p :: l) = lst (Some p) l.
Proof. unfold lst. destruct l as [|q l]; [done|]. cbn [last]. by destruct (last (q :: l)) eqn:E; [|apply last_None in E]. Qed.
Lemma lst_app bef l1 l2 : lst bef (l1 ++ l2) = lst (lst bef l1) l2.
Proof. revert bef. induction l1 as [|p l1 IH]; intros bef; [done|]. cbn [app]. by rewrite !lst_cons. Qed.
Lemma seg_ext L L' bef l aft : (forall p, p ∈ l -> L' p = L p) -> seg L bef l aft -> seg L' bef l aft.
Proof.
  revert bef. induction l as [|p l IH]; intros bef E; [done|]. intros [H1 H2]. split.
  - rewrite E by apply elem_of_list_here. done.
  - apply IH; [|done]. intros q Hq. apply E. by apply elem_of_list_further.
Qed.
Lemma seg_app L bef l1 l2 aft : seg L bef (l1 ++ l2) aft <-> seg L bef l1 (hd l2 aft) /\ seg L (lst bef l1) l2 aft.
Proof.
  revert bef. induction l1 as [|p l1 IH]; intros bef; cbn [app seg].
  - unfold lst. cbn. tauto.
  - rewrite IH, hd_app, lst_cons. tauto.
Qed.
Lemma seg_mid L bef l1 p l2 aft : seg L bef (l1 ++ p :: l2) aft <->
  seg L bef l1 (Some p) /\ L p = Some (lst bef l1, hd l2 aft) /\ seg L (Some p) l2 aft.
Proof. rewrite seg_app. cbn [seg hd]. tauto. Qed.
Lemma seg_aft L L' bef l x y : NoDup l ->
  (forall p, p ∈ l -> L' p = if decide (last l = Some p) then (fun bn => (bn.1, y)) <$> L p else L p) ->
  seg L bef l x -> seg L' bef l y.
Proof.
  revert bef. induction l as [|p l IH]; intros bef ND E; [done|]. intros [H1 H2]. apply NoDup_cons in ND as [Np ND].
  destruct l as [|q l].
  - cbn. rewrite E by apply elem_of_list_here. cbn [last]. rewrite decide_True by done. by rewrite H1.
  - cbn [last] in E. split.
    + rewrite E by apply elem_of_list_here. rewrite decide_False; [done|]. intros H%last_Some_elem_of. done.
    + apply IH; try done. intros r Hr. apply E. by apply elem_of_list_further.
Qed.
Lemma seg_bef L L' x y l aft : NoDup l ->
  (forall p, p ∈ l -> L' p = if decide (head l = Some p) then (fun bn => (y, bn.2)) <$> L p else L p) ->
  seg L x l aft -> seg L' y l aft.
Proof.
  destruct l as [|p l]; intros ND E; [done|]. intros [H1 H2]. apply NoDup_cons in ND as [Np ND]. split.
  - rewrite E by apply elem_of_list_here. cbn [head]. rewrite decide_True by done. by rewrite H1.
  - eapply seg_ext; [|exact H2]. intros q Hq. rewrite E by (by apply elem_of_list_further).
    cbn [head]. rewrite decide_False; [done|]. congruence.
Qed.

(** ** Fields under updates *)
Notation h_t := (gmap nat block).
Lemma fld_same {A} (g : block -> A) f (q r : nat) (h : h_t) : (forall b, g (f b) = g b) ->
  g <$> (alter f q h !! r) = g <$> h !! r.
Proof.
  intros E. destruct (decide (q = r)) as [->|NE].
  - rewrite lookup_alter. destruct (h !! r); cbn; [by rewrite E|done].
  - by rewrite lookup_alter_ne.
Qed.
Lemma fld_alter {A} (g : block -> A) f (q : nat) (h : h_t) : g <$> (alter f q h !! q) = (fun b => g (f b)) <$> h !! q.
Proof. rewrite lookup_alter. by destruct (h !! q). Qed.
Lemma fld_other {A} (g : block -> A) f (q r : nat) (h : h_t) : q <> r -> g <$> (alter f q h !! r) = g <$> h !! r.
Proof. intros. by rewrite lookup_alter_ne. Qed.
Lemma some_alter f (q r : nat) (h : h_t) : is_Some (alter f q h !! r) <-> is_Some (h !! r).
Proof.
  destruct (decide (q = r)) as [->|NE]; [rewrite lookup_alter; apply fmap_is_Some|by rewrite lookup_alter_ne].
Qed.
Lemma load_ok st p b : blocks st !! p = Some b -> load st p = Ok b.
Proof. unfold load. by intros ->. Qed.
Lemma store_ok st p f : is_Some (blocks st !! p) ->
  store st p f = Ok (mk_ra (alter f p (blocks st)) (buckets st) (st_stats st) (made st)).
Proof. intros [b E]. unfold store. by rewrite E. Qed.
Lemma destroy_ok st p : is_Some (blocks st !! p) ->
  destroy st p = Ok (mk_ra (delete p (blocks st)) (buckets st) (st_stats st) (made st)).
Proof. intros [b E]. unfold destroy. by rewrite E. Qed.

(** An optional write. *)
Definition alter_opt (f : block -> block) (q : option nat) (h : h_t) : h_t :=
  match q with Some q => alter f q h | None => h end.
Lemma store_opt st q f : (forall p, q = Some p -> is_Some (blocks st !! p)) ->
  match q with Some n => store st n f | None => Ok st end =
  Ok (mk_ra (alter_opt f q (blocks st)) (buckets st) (st_stats st) (made st)).
Proof. intros H. destruct q; [apply store_ok, H; done|by destruct st]. Qed.
Lemma fld_opt {A} (g : block -> A) f (q : option nat) (r : nat) (h : h_t) :
  g <$> (alter_opt f q h !! r) = if decide (q = Some r) then (fun b => g (f b)) <$> h !! r else g <$> h !! r.
Proof.
  destruct q as [q|]; cbn [alter_opt]; [|by rewrite decide_False].
  destruct (decide (q = r)) as [->|NE].
  - rewrite decide_True by done. apply fld_alter.
  - rewrite decide_False by congruence. by apply fld_other.
Qed.
Lemma fld_opt_same {A} (g : block -> A) f (q : option nat) (r : nat) (h : h_t) : (forall b, g (f b) = g b) ->
  g <$> (alter_opt f q h !! r) = g <$> h !! r.
Proof. intros E. destruct q; [by apply fld_same|done]. Qed.
Lemma some_alter_opt f q (r : nat) (h : h_t) : is_Some (alter_opt f q h !! r) <-> is_Some (h !! r).
Proof. destruct q; [apply some_alter|done]. Qed.
Lemma lookup_alter_opt_ne f q (r : nat) (h : h_t) : q <> Some r -> alter_opt f q h !! r = h !! r.
Proof. intros. destruct q; [|done]. apply lookup_alter_ne. congruence. Qed.

(** ** The representation *)
Record ent := mk_ent { e_id : nat; e_start : Z; e_size : Z; e_off : Z; e_free : bool }.
Definition dat (b : block) := (b_start b, b_size b, b_offset b, b_free b).
Definition edat (e : ent) := (e_start e, e_size e, e_off e, e_free e).
Definition plk (b : block) := (b_prev b, b_next b).
Definition flk (b : block) := (b_pfree b, b_nfree b).
Definition PL (h : h_t) : links := fun p => plk <$> h !! p.
Definition FL (h : h_t) : links := fun p => flk <$> h !! p.
Definition ids (lay : list ent) : list nat := map e_id lay.
Definition with_free v e := mk_ent (e_id e) (e_start e) (e_size e) (e_off e) v.
Definition with_off v e := mk_ent (e_id e) (e_start e) (e_size e) v (e_free e).
Definition with_size v e := mk_ent (e_id e) (e_start e) v (e_off e) (e_free e).

Section core.
  Context (Buckets : nat) (Bias : Z).
  Definition bidx (size : Z) : nat := Z.to_nat (size_to_idx Buckets Bias size).

  Record core (h : h_t) (bk : list (option nat)) (lay : list ent) (fr : list (list nat)) : Prop := mk_core {
    c_phys : seg (PL h) None (ids lay) None;
    c_dat : forall e, e ∈ lay -> dat <$> h !! e_id e = Some (edat e);
    c_dom : forall p, is_Some (h !! p) -> p ∈ ids lay;
    c_len : length bk = length fr;
    c_bk : forall k l, fr !! k = Some l -> bk !! k = Some (head l) /\ seg (FL h) None l None;
    c_nodup : NoDup (ids lay);
    c_frnd : forall k l, fr !! k = Some l -> NoDup l;
    c_fr : forall k l p, fr !! k = Some l ->
      (p ∈ l <-> exists e, e ∈ lay /\ e_id e = p /\ e_free e = true /\ bidx (e_size e) = k)
  }.

  Lemma ids_app l1 l2 : ids (l1 ++ l2) = ids l1 ++ ids l2.
  Proof. apply map_app. Qed.
  Lemma ids_elem e lay : e ∈ lay -> e_id e ∈ ids lay.
  Proof. intros H. apply elem_of_list_fmap. by exists e. Qed.
  Lemma ids_inj lay e1 e2 : NoDup (ids lay) -> e1 ∈ lay -> e2 ∈ lay -> e_id e1 = e_id e2 -> e1 = e2.
  Proof.
    induction lay as [|a lay IH]; intros ND H1 H2 E; [by apply elem_of_nil in H1|].
    cbn in ND. apply NoDup_cons in ND as [Na ND].
    apply elem_of_cons in H1 as [->|H1]; apply elem_of_cons in H2 as [->|H2]; try done.
    - exfalso. apply Na. rewrite E. by apply ids_elem.
    - exfalso. apply Na. rewrite <- E. by apply ids_elem.
    - by apply IH.
  Qed.
  Lemma mid_ids l1 e l2 q : NoDup (ids (l1 ++ e :: l2)) -> q ∈ ids l1 \/ q ∈ ids l2 -> q <> e_id e.
  Proof.
    rewrite ids_app. cbn. intros (N1 & N2 & [N3 N4]%NoDup_cons)%NoDup_app [H|H] ->; [|done].
    apply (N2 _ H). apply elem_of_list_here.
  Qed.
  Lemma core_here h bk lay fr e : core h bk lay fr -> e ∈ lay ->
    exists b, h !! e_id e = Some b /\ dat b = edat e.
  Proof.
    intros C H. pose proof (c_dat _ _ _ _ C e H) as D. destruct (h !! e_id e) as [b|]; [|done].
    exists b. cbn in D. split; [done|]. congruence.
  Qed.

  (** How the data and domain change when one entry changes. *)
  Lemma dat_replace (h h' : h_t) l1 e e' l2 : NoDup (ids (l1 ++ e :: l2)) -> e_id e' = e_id e ->
    (forall a, a ∈ l1 ++ e :: l2 -> dat <$> h !! e_id a = Some (edat a)) ->
    (forall q, q <> e_id e -> dat <$> h' !! q = dat <$> h !! q) ->
    dat <$> h' !! e_id e = Some (edat e') ->
    forall a, a ∈ l1 ++ e' :: l2 -> dat <$> h' !! e_id a = Some (edat a).
  Proof.
    intros ND Ei D O N a Ha. apply elem_of_app in Ha as [Ha|[->|Ha]%elem_of_cons].
    - rewrite O; [apply D, elem_of_app; by left|]. eapply mid_ids; [exact ND|]. left. by apply ids_elem.
    - by rewrite Ei.
    - rewrite O; [apply D, elem_of_app; right; by apply elem_of_list_further|].
      eapply mid_ids; [exact ND|]. right. by apply ids_elem.
  Qed.
  Lemma ids_replace l1 e e' l2 : e_id e' = e_id e -> ids (l1 ++ e' :: l2) = ids (l1 ++ e :: l2).
  Proof. intros E. rewrite !ids_app. cbn. by rewrite E. Qed.

  Lemma elem_split (l : list nat) p : p ∈ l -> exists f1 f2, l = f1 ++ p :: f2.
  Proof. apply elem_of_list_split. Qed.
  Lemma bk_head_first (f1 f2 : list nat) p : NoDup (f1 ++ p :: f2) -> head (f1 ++ p :: f2) = Some p -> f1 = [].
  Proof.
    destruct f1 as [|a f1]; [done|]. cbn. intros [N _]%NoDup_cons [= ->]. exfalso. apply N, elem_of_app. right. apply elem_of_list_here.
  Qed.
  Lemma free_lists_apart h bk lay fr j k l m p : core h bk lay fr ->
    fr !! j = Some l -> fr !! k = Some m -> p ∈ l -> p ∈ m -> j = k.
  Proof.
    intros C Hj Hk Pl Pm. apply (c_fr _ _ _ _ C _ _ _ Hj) in Pl as (e1 & I1 & E1 & _ & B1).
    apply (c_fr _ _ _ _ C _ _ _ Hk) in Pm as (e2 & I2 & E2 & _ & B2).
    assert (e1 = e2) as -> by (eapply ids_inj; [apply (c_nodup _ _ _ _ C)|done|done|congruence]). congruence.
  Qed.
  Lemma last_mid (f1 f2 : list nat) p : last (f1 ++ p :: f2) = Some (match last f2 with Some q => q | None => p end).
  Proof. rewrite last_app_cons. destruct f2; [done|]. cbn [last]. by destruct (last (n :: f2)) eqn:E; [|apply last_None in E]. Qed.

  Lemma remove_ok st l1 e l2 fr : core (blocks st) (buckets st) (l1 ++ e :: l2) fr -> e_free e = true ->
    length fr = Buckets -> (bidx (e_size e) < Buckets)%nat ->
    exists f1 f2 st', fr !! bidx (e_size e) = Some (f1 ++ e_id e :: f2) /\
      remove_free_block Buckets Bias st (e_id e) = Ok st' /\
      core (blocks st') (buckets st') (l1 ++ with_free false e :: l2) (<[bidx (e_size e) := f1 ++ f2]> fr) /\
      st_stats st' = add_bucket_size (size_to_idx Buckets Bias (e_size e)) (-1) (st_stats st) /\
      made st' = made st.
  Proof.
    intros C Fe Lf Lk. set (k := bidx (e_size e)) in *. set (p := e_id e).
    assert (e ∈ l1 ++ e :: l2) as He by (apply elem_of_app; right; apply elem_of_list_here).
    destruct (lookup_lt_is_Some_2 fr k) as [l El]; [lia|].
    assert (p ∈ l) as Hp by (apply (c_fr _ _ _ _ C _ _ _ El); by exists e).
    destruct (elem_split _ _ Hp) as (f1 & f2 & ->).
    pose proof (c_frnd _ _ _ _ C _ _ El) as ND. pose proof ND as (ND1 & ND12 & [NDp ND2]%NoDup_cons)%NoDup_app.
    assert (p ∉ f1) as NDq. { intros H. apply (ND12 _ H). apply elem_of_list_here. }
    destruct (c_bk _ _ _ _ C _ _ El) as [Bk Sg]. apply seg_mid in Sg as (S1 & S2 & S3).
    destruct (core_here _ _ _ _ _ C He) as (b & Eb & Db). fold p in Eb.
    unfold FL in S2. rewrite Eb in S2. cbn in S2. injection S2 as Pf Nf.
    injection Db as Ds Dz Do Df.
    assert (forall q, q ∈ f1 ++ p :: f2 -> is_Some (blocks st !! q)) as Some_l.
    { intros q Hq. apply (c_fr _ _ _ _ C _ _ _ El) in Hq as (a & Ia & <- & _).
      destruct (core_here _ _ _ _ _ C Ia) as (b' & -> & _). by eexists. }
    assert (lst None f1 <> Some p) as Np1.
    { unfold lst. destruct (last f1) eqn:L; [|done]. intros [= ->]. apply last_Some_elem_of in L. done. }
    assert (hd f2 None <> Some p) as Np2.
    { destruct f2; cbn; [done|]. intros [= ->]. apply NDp, elem_of_list_here. }
    set (h := blocks st) in *.
    set (h1 := alter (set_free false) p h).
    set (h2 := alter_opt (set_nfree (hd f2 None)) (lst None f1) h1).
    set (h3 := alter_opt (set_pfree (lst None f1)) (hd f2 None) h2).
    set (h5 := alter (set_pfree None) p (alter (set_nfree None) p h3)).
    exists f1, f2.
    assert (remove_free_block Buckets Bias st p =
      Ok (mk_ra h5 (<[k := head (f1 ++ f2)]> (buckets st))
            (add_bucket_size (size_to_idx Buckets Bias (e_size e)) (-1) (st_stats st)) (made st))) as ->.
    { unfold remove_free_block. rewrite store_ok by (fold h; by rewrite Eb). cbn [mbind res_bind].
      fold h h1. assert (h1 !! p = Some (set_free false b)) as E1 by (unfold h1; by rewrite lookup_alter, Eb).
      rewrite (load_ok _ _ (set_free false b)) by done. cbn [mbind res_bind].
      cbn [set_free b_size b_pfree b_nfree]. rewrite Pf, Nf, Dz.
      rewrite store_opt.
      2:{ intros q Hq. cbn. apply some_alter, Some_l, elem_of_app. left. unfold lst in Hq.
          destruct (last f1) eqn:L; [|done]. injection Hq as ->. by apply last_Some_elem_of in L. }
      cbn [mbind res_bind blocks]. fold h2.
      assert (h2 !! p = Some (set_free false b)) as E2 by (unfold h2; by rewrite lookup_alter_opt_ne).
      rewrite (load_ok _ _ (set_free false b)) by done. cbn [mbind res_bind set_free b_pfree b_nfree]. rewrite Pf, Nf.
      rewrite store_opt.
      2:{ intros q Hq. cbn. apply some_alter_opt, some_alter, Some_l, elem_of_app. right.
          destruct f2; [done|]. injection Hq as ->. apply elem_of_list_further, elem_of_list_here. }
      cbn [mbind res_bind blocks]. fold h3.
      assert (h3 !! p = Some (set_free false b)) as E3 by (unfold h3; by rewrite lookup_alter_opt_ne).
      rewrite (load_ok _ _ (set_free false b)) by done. cbn [mbind res_bind set_free b_pfree b_nfree]. rewrite Nf.
      unfold bucket. cbn [buckets]. change (Z.to_nat (size_to_idx Buckets Bias (e_size e))) with k. rewrite Bk.
      cbn [mbind res_bind].
      set (st4 := if bool_decide _ then _ else _).
      assert (st4 = mk_ra h3 (<[k := head (f1 ++ f2)]> (buckets st)) (st_stats st) (made st)) as ->.
      { unfold st4. case_bool_decide as Hb.
        - apply bk_head_first in Hb as ->; [|done]. unfold set_bucket. cbn. by destruct f2.
        - f_equal. symmetry. apply list_insert_id. rewrite Bk. destruct f1; [done|]. done. }
      rewrite store_ok by (cbn; by rewrite E3). cbn [mbind res_bind blocks].
      rewrite store_ok by (cbn; apply some_alter; by rewrite E3). cbn [mbind res_bind]. done. }
    eexists. split_and!; [done|done| |done|done]. cbn [blocks buckets].
    assert (forall q, PL h5 q = PL h q) as PLs.
    { intros q. unfold PL, h5, h3, h2, h1. rewrite !fld_same by done. rewrite !fld_opt_same by done. by apply fld_same. }
    assert (forall q, FL h5 q = if decide (q = p) then Some (None, None) else
      if decide (hd f2 None = Some q) then (fun bn => (lst None f1, bn.2)) <$> FL h q
      else if decide (lst None f1 = Some q) then (fun bn => (bn.1, hd f2 None)) <$> FL h q else FL h q) as FLs.
    { intros q. unfold FL, h5. destruct (decide (q = p)) as [->|NE].
      - rewrite fld_alter, lookup_alter. unfold h3, h2, h1. rewrite !lookup_alter_opt_ne by done.
        rewrite lookup_alter. by rewrite Eb.
      - rewrite !fld_other by done. unfold h3. rewrite fld_opt.
        destruct (decide (hd f2 None = Some q)) as [Eq|Nq].
        + assert (lst None f1 <> Some q) as Nl.
          { intros H. unfold lst in H. destruct (last f1) eqn:L; [|done]. injection H as ->. apply last_Some_elem_of in L.
            destruct f2; [done|]. injection Eq as ->. apply (ND12 _ L). apply elem_of_list_further, elem_of_list_here. }
          unfold h2. rewrite lookup_alter_opt_ne by done. unfold h1. rewrite lookup_alter_ne by done. by destruct (h !! q).
        + unfold h2. rewrite fld_opt. destruct (decide (lst None f1 = Some q)).
          * unfold h1. rewrite lookup_alter_ne by done. by destruct (h !! q).
          * unfold h1. by rewrite fld_other. }
    assert (forall q, is_Some (h5 !! q) <-> is_Some (h !! q)) as SM.
    { intros q. unfold h5, h3, h2, h1. by rewrite !some_alter, !some_alter_opt, some_alter. }
    constructor.
    - rewrite (ids_replace l1 e (with_free false e)) by done. eapply seg_ext; [intros q _; apply PLs|apply C].
    - eapply (dat_replace h); [exact (c_nodup _ _ _ _ C)|done|exact (c_dat _ _ _ _ C)| |].
      + intros q Nq. fold p in Nq. unfold h5, h3, h2, h1. rewrite !fld_same by done. rewrite !fld_opt_same by done. by apply fld_other.
      + fold p. unfold h5, h3, h2, h1. rewrite !fld_same by done. rewrite !fld_opt_same by done. rewrite fld_alter, Eb.
        cbn. unfold dat, edat. cbn. by rewrite Ds, Dz, Do.
    - intros q Hq. rewrite (ids_replace l1 e (with_free false e)) by done. apply (c_dom _ _ _ _ C). by apply SM.
    - rewrite !insert_length. apply C.
    - intros j m Hj. destruct (decide (k = j)) as [<-|NE].
      + rewrite list_lookup_insert in Hj by lia. injection Hj as <-.
        split; [apply list_lookup_insert; rewrite (c_len _ _ _ _ C); lia|].
        apply seg_app. split.
        * eapply seg_aft; [done| |exact S1]. intros q Hq. rewrite FLs.
          rewrite decide_False by (by intros ->). rewrite decide_False.
          2:{ intros H. destruct f2; [done|]. injection H as ->. apply (ND12 _ Hq). apply elem_of_list_further, elem_of_list_here. }
          unfold lst. destruct (last f1) as [z|] eqn:L; [|by rewrite !decide_False].
          destruct (decide (z = q)) as [->|]; [by rewrite !decide_True|by rewrite !decide_False by congruence].
        * eapply seg_bef; [done| |exact S3]. intros q Hq. rewrite FLs.
          rewrite decide_False by (by intros ->).
          destruct f2 as [|z f2]; [by apply elem_of_nil in Hq|]. cbn [hd head].
          destruct (decide (Some z = Some q)) as [Ez|Nz]; [done|]. rewrite decide_False; [done|].
          unfold lst. destruct (last f1) eqn:L; [|done]. intros [= ->]. apply last_Some_elem_of in L. by apply (ND12 _ L), elem_of_list_further.
      + rewrite list_lookup_insert_ne in Hj by done. destruct (c_bk _ _ _ _ C _ _ Hj) as [B S]. split.
        * by rewrite list_lookup_insert_ne.
        * eapply seg_ext; [|exact S]. intros q Hq.
          assert (q ∉ f1 ++ p :: f2) as Nq.
          { intros H. apply NE. by eapply (free_lists_apart _ _ _ _ _ _ _ _ _ C El Hj). }
          apply not_elem_of_app in Nq as [Nq1 [Nq2 Nq3]%not_elem_of_cons].
          rewrite FLs, !decide_False; [done| | |done].
          -- unfold lst. destruct (last f1) eqn:L; [|done]. intros [= ->]. by apply last_Some_elem_of in L.
          -- destruct f2; [done|]. intros [= ->]. apply Nq3, elem_of_list_here.
    - rewrite (ids_replace l1 e (with_free false e)) by done. apply C.
    - intros j m Hj. destruct (decide (k = j)) as [<-|NE].
      + rewrite list_lookup_insert in Hj by lia. injection Hj as <-. apply NoDup_app. split_and!; try done.
        intros q H1 H2. apply (ND12 _ H1). by apply elem_of_list_further.
      + rewrite list_lookup_insert_ne in Hj by done. by eapply C.
    - intros j m q Hj. destruct (decide (q = p)) as [->|Nq].
      + split.
        * intros Hm. exfalso. destruct (decide (k = j)) as [<-|NE].
          -- rewrite list_lookup_insert in Hj by lia. injection Hj as <-. apply elem_of_app in Hm as [?|?]; done.
          -- rewrite list_lookup_insert_ne in Hj by done. apply NE. by eapply (free_lists_apart _ _ _ _ _ _ _ _ _ C El Hj).
        * intros (a & Ia & Ea & Fa & _). exfalso.
          assert (a = with_free false e) as ->; [|done].
          eapply (ids_inj (l1 ++ with_free false e :: l2)); [|done| |done].
          -- rewrite (ids_replace l1 e (with_free false e)) by done. apply C.
          -- apply elem_of_app. right. apply elem_of_list_here.
      + assert ((exists a, a ∈ l1 ++ with_free false e :: l2 /\ e_id a = q /\ e_free a = true /\ bidx (e_size a) = j) <->
                (exists a, a ∈ l1 ++ e :: l2 /\ e_id a = q /\ e_free a = true /\ bidx (e_size a) = j)) as ->.
        { split; intros (a & Ia & Ea & R); exists a; (split; [|done]).
          - apply elem_of_app in Ia as [?|[->|?]%elem_of_cons]; apply elem_of_app; [by left|done|right; by apply elem_of_list_further].
          - apply elem_of_app in Ia as [?|[->|?]%elem_of_cons]; apply elem_of_app; [by left|done|right; by apply elem_of_list_further]. }
        destruct (decide (k = j)) as [<-|NE].
        * rewrite list_lookup_insert in Hj by lia. injection Hj as <-. rewrite <- (c_fr _ _ _ _ C _ _ q El).
          rewrite !elem_of_app, elem_of_cons. tauto.
        * rewrite list_lookup_insert_ne in Hj by done. by apply (c_fr _ _ _ _ C).
  Qed.

  Lemma elem_replace (l1 l2 : list ent) (e e' a : ent) : a <> e' -> a ∈ l1 ++ e' :: l2 -> a ∈ l1 ++ e :: l2.
  Proof. intros N. rewrite !elem_of_app, !elem_of_cons. tauto. Qed.

  Lemma insert_ok st l1 e l2 fr l : core (blocks st) (buckets st) (l1 ++ e :: l2) fr -> e_free e = false ->
    fr !! bidx (e_size e) = Some l ->
    exists st', insert_free_block Buckets Bias st (e_id e) = Ok st' /\
      core (blocks st') (buckets st') (l1 ++ with_free true e :: l2) (<[bidx (e_size e) := e_id e :: l]> fr) /\
      st_stats st' = add_bucket_size (size_to_idx Buckets Bias (e_size e)) 1 (st_stats st) /\
      made st' = made st.
  Proof.
    intros C Fe El. set (k := bidx (e_size e)) in *. set (p := e_id e).
    pose proof (lookup_lt_Some _ _ _ El) as Lk.
    assert (e ∈ l1 ++ e :: l2) as He by (apply elem_of_app; right; apply elem_of_list_here).
    assert (forall j m, fr !! j = Some m -> p ∉ m) as Np.
    { intros j m Hj Hm. apply (c_fr _ _ _ _ C _ _ _ Hj) in Hm as (a & Ia & Ea & Fa & _).
      assert (a = e) as ->; [|congruence]. by eapply ids_inj; [apply (c_nodup _ _ _ _ C)|..]. }
    destruct (c_bk _ _ _ _ C _ _ El) as [Bk Sg].
    destruct (core_here _ _ _ _ _ C He) as (b & Eb & Db). fold p in Eb. injection Db as Ds Dz Do Df.
    assert (hd l None = head l) as Hh by (by destruct l).
    assert (head l <> Some p) as Nh.
    { destruct l; [done|]. intros [= ->]. eapply Np; [exact El|apply elem_of_list_here]. }
    set (h := blocks st) in *.
    set (h3 := alter (set_nfree (head l)) p (alter (set_pfree None) p (alter (set_free true) p h))).
    set (h4 := alter_opt (set_pfree (Some p)) (head l) h3).
    assert (insert_free_block Buckets Bias st p =
      Ok (mk_ra h4 (<[k := Some p]> (buckets st))
            (add_bucket_size (size_to_idx Buckets Bias (e_size e)) 1 (st_stats st)) (made st))) as ->.
    { unfold insert_free_block. rewrite store_ok by (fold h; by rewrite Eb). cbn [mbind res_bind]. fold h.
      rewrite (load_ok _ _ (set_free true b)) by (cbn; by rewrite lookup_alter, Eb). cbn [mbind res_bind set_free b_size].
      rewrite Dz. rewrite store_ok by (cbn; apply some_alter; by rewrite Eb). cbn [mbind res_bind].
      unfold bucket. cbn [buckets blocks]. change (Z.to_nat (size_to_idx Buckets Bias (e_size e))) with k. rewrite Bk.
      cbn [mbind res_bind]. rewrite store_ok by (cbn; rewrite !some_alter; by rewrite Eb). cbn [mbind res_bind buckets blocks].
      rewrite Bk. cbn [mbind res_bind]. fold h3.
      rewrite store_opt. 2:{ intros q Hq. cbn. unfold h3. rewrite !some_alter.
        destruct l as [|z l]; [done|]. injection Hq as ->.
        assert (q ∈ q :: l) as Hq by apply elem_of_list_here. apply (c_fr _ _ _ _ C _ _ _ El) in Hq as (a & Ia & <- & _).
        destruct (core_here _ _ _ _ _ C Ia) as (b' & -> & _). by eexists. }
      done. }
    eexists. split_and!; [done| |done|done]. cbn [blocks buckets].
    assert (forall q, PL h4 q = PL h q) as PLs.
    { intros q. unfold PL, h4, h3. rewrite fld_opt_same by done. by rewrite !fld_same by done. }
    assert (forall q, q <> p -> FL h4 q = if decide (head l = Some q) then (fun bn => (Some p, bn.2)) <$> FL h q else FL h q) as FLs.
    { intros q Nq. unfold FL, h4. rewrite fld_opt. unfold h3. rewrite !lookup_alter_ne by done.
      destruct (decide (head l = Some q)); [by destruct (h !! q)|done]. }
    assert (FL h4 p = Some (None, head l)) as FLp.
    { unfold FL, h4. rewrite lookup_alter_opt_ne by done. unfold h3. rewrite !lookup_alter, Eb. done. }
    constructor.
    - rewrite (ids_replace l1 e (with_free true e)) by done. eapply seg_ext; [intros q _; apply PLs|apply C].
    - eapply (dat_replace h); [exact (c_nodup _ _ _ _ C)|done|exact (c_dat _ _ _ _ C)| |].
      + intros q Nq. fold p in Nq. unfold h4, h3. rewrite fld_opt_same by done. by rewrite !fld_other by done.
      + fold p. unfold h4, h3. rewrite fld_opt_same by done. rewrite !fld_same by done. rewrite fld_alter, Eb.
        cbn. unfold dat, edat. cbn. by rewrite Ds, Dz, Do.
    - intros q Hq. rewrite (ids_replace l1 e (with_free true e)) by done. apply (c_dom _ _ _ _ C).
      unfold h4, h3 in Hq. by rewrite some_alter_opt, !some_alter in Hq.
    - rewrite !insert_length. apply C.
    - intros j m Hj. destruct (decide (k = j)) as [<-|NE].
      + rewrite list_lookup_insert in Hj by lia. injection Hj as <-.
        split; [apply list_lookup_insert; rewrite (c_len _ _ _ _ C); lia|].
        cbn [seg]. split; [by rewrite Hh|]. eapply seg_bef; [by eapply C| |exact Sg].
        intros q Hq. rewrite FLs by (intros ->; by eapply Np). done.
      + rewrite list_lookup_insert_ne in Hj by done. destruct (c_bk _ _ _ _ C _ _ Hj) as [B S]. split.
        * by rewrite list_lookup_insert_ne.
        * eapply seg_ext; [|exact S]. intros q Hq. rewrite FLs by (intros ->; by eapply Np).
          rewrite decide_False; [done|]. intros H. apply NE.
          eapply (free_lists_apart _ _ _ _ _ _ _ _ q C El Hj); [|done]. destruct l; [done|]. injection H as ->. apply elem_of_list_here.
    - rewrite (ids_replace l1 e (with_free true e)) by done. apply C.
    - intros j m Hj. destruct (decide (k = j)) as [<-|NE].
      + rewrite list_lookup_insert in Hj by lia. injection Hj as <-. apply NoDup_cons. split; [by eapply Np|by eapply C].
      + rewrite list_lookup_insert_ne in Hj by done. by eapply C.
    - intros j m q Hj. destruct (decide (q = p)) as [->|Nq].
      + split.
        * intros Hm. exists (with_free true e). split_and!; [apply elem_of_app; right; apply elem_of_list_here|done|done|].
          destruct (decide (k = j)) as [<-|NE]; [done|].
          rewrite list_lookup_insert_ne in Hj by done. exfalso. by eapply Np.
        * intros (a & Ia & Ea & Fa & Ba).
          assert (a = with_free true e) as ->.
          { eapply (ids_inj (l1 ++ with_free true e :: l2)); [|done| |done].
            -- rewrite (ids_replace l1 e (with_free true e)) by done. apply C.
            -- apply elem_of_app. right. apply elem_of_list_here. }
          cbn [with_free e_size] in Ba. fold k in Ba. subst j. rewrite list_lookup_insert in Hj by lia. injection Hj as <-.
          apply elem_of_list_here.
      + assert ((exists a, a ∈ l1 ++ with_free true e :: l2 /\ e_id a = q /\ e_free a = true /\ bidx (e_size a) = j) <->
                (exists a, a ∈ l1 ++ e :: l2 /\ e_id a = q /\ e_free a = true /\ bidx (e_size a) = j)) as ->.
        { split; intros (a & Ia & Ea & R); exists a; (split; [|done]); (eapply elem_replace; [|exact Ia]); intros ->; by subst q. }
        destruct (decide (k = j)) as [<-|NE].
        * rewrite list_lookup_insert in Hj by lia. injection Hj as <-. rewrite <- (c_fr _ _ _ _ C _ _ q El).
          rewrite elem_of_cons. tauto.
        * rewrite list_lookup_insert_ne in Hj by done. by apply (c_fr _ _ _ _ C).
  Qed.

  (** Changing the data of a block that is not free, keeping its links. *)
  Lemma core_replace h h' bk l1 e e' l2 fr : core h bk (l1 ++ e :: l2) fr -> e_free e = false -> e_free e' = false ->
    e_id e' = e_id e -> (forall q, PL h' q = PL h q) -> (forall q, FL h' q = FL h q) ->
    (forall q, q <> e_id e -> dat <$> h' !! q = dat <$> h !! q) -> dat <$> h' !! e_id e = Some (edat e') ->
    core h' bk (l1 ++ e' :: l2) fr.
  Proof.
    intros C Fe Fe' Ei P F D N. constructor.
    - rewrite (ids_replace l1 e e') by done. eapply seg_ext; [intros q _; apply P|apply C].
    - eapply (dat_replace h); [exact (c_nodup _ _ _ _ C)|done|exact (c_dat _ _ _ _ C)|done|done].
    - intros q Hq. rewrite (ids_replace l1 e e') by done. apply (c_dom _ _ _ _ C).
      specialize (P q). unfold PL in P. destruct Hq as [b Hq]. rewrite Hq in P. by destruct (h !! q).
    - apply C.
    - intros j m Hj. destruct (c_bk _ _ _ _ C _ _ Hj) as [B S]. split; [done|]. eapply seg_ext; [intros q _; apply F|done].
    - rewrite (ids_replace l1 e e') by done. apply C.
    - apply C.
    - intros j m q Hj. rewrite (c_fr _ _ _ _ C _ _ _ Hj). split; intros (a & Ia & Ea & Fa & Ba); exists a;
        (split; [|done]); (eapply elem_replace; [|exact Ia]); intros ->; congruence.
  Qed.

  (** Splitting: a new header [q] right after [e], neither of them free. *)
  Definition split_heap (h : h_t) (p q : nat) (nx : option nat) (nb : block) (sz : Z) : h_t :=
    alter (set_next (Some q)) p (alter_opt (set_prev (Some q)) nx (alter (set_size sz) p (<[q := nb]> h))).
  Lemma split_core h bk l1 e l2 fr q nb sz n : core h bk (l1 ++ e :: l2) fr -> e_free e = false ->
    h !! q = None -> plk nb = (Some (e_id e), hd (ids l2) None) -> edat n = dat nb -> e_id n = q -> e_free n = false ->
    core (split_heap h (e_id e) q (hd (ids l2) None) nb sz) bk (l1 ++ with_size sz e :: n :: l2) fr.
  Proof.
    intros C Fe Hq Pn Dn In Fn. set (p := e_id e) in *. set (nx := hd (ids l2) None) in *.
    assert (e ∈ l1 ++ e :: l2) as He by (apply elem_of_app; right; apply elem_of_list_here).
    destruct (core_here _ _ _ _ _ C He) as (b & Eb & Db). fold p in Eb. injection Db as Ds Dz Do Df.
    assert (p <> q) as Npq by congruence.
    pose proof (c_phys _ _ _ _ C) as P. rewrite ids_app in P. cbn [ids map] in P. fold (ids l2) in P. fold p in P.
    apply seg_mid in P as (P1 & P2 & P3). unfold PL in P2. rewrite Eb in P2. cbn in P2. injection P2 as Pp Pnx.
    assert (q ∉ ids (l1 ++ e :: l2)) as Nq.
    { intros (a & -> & Ia)%elem_of_list_fmap. destruct (core_here _ _ _ _ _ C Ia) as (b' & E' & _). congruence. }
    pose proof (c_nodup _ _ _ _ C) as ND. rewrite ids_app in ND. cbn in ND. fold (ids l2) in ND. fold p in ND.
    pose proof ND as (ND1 & ND12 & [NDp ND2]%NoDup_cons)%NoDup_app.
    rewrite ids_app in Nq. cbn in Nq. fold (ids l2) in Nq. fold p in Nq.
    apply not_elem_of_app in Nq as [Nq1 [_ Nq2]%not_elem_of_cons].
    assert (nx <> Some p) as Nnp. { subst nx. destruct (ids l2); cbn; [done|]. intros [= ->]. apply NDp, elem_of_list_here. }
    assert (nx <> Some q) as Nnq. { subst nx. destruct (ids l2); cbn; [done|]. intros [= ->]. apply Nq2, elem_of_list_here. }
    set (h' := split_heap h p q nx nb sz).
    assert (PL h' p = Some (lst None (ids l1), Some q)) as PLp.
    { unfold PL, h', split_heap. rewrite fld_alter, lookup_alter_opt_ne, lookup_alter, lookup_insert_ne, Eb by done.
      cbn. by rewrite <- Pp. }
    assert (PL h' q = Some (Some p, nx)) as PLq.
    { unfold PL, h', split_heap. rewrite fld_other by done. rewrite lookup_alter_opt_ne by done.
      rewrite lookup_alter_ne, lookup_insert by done. cbn. by rewrite Pn. }
    assert (forall r, r <> p -> r <> q -> PL h' r = if decide (nx = Some r) then (fun bn => (Some q, bn.2)) <$> PL h r else PL h r) as PLo.
    { intros r N1 N2. unfold PL, h', split_heap. rewrite fld_other by done. rewrite fld_opt.
      rewrite lookup_alter_ne, lookup_insert_ne by done. destruct (decide (nx = Some r)); by destruct (h !! r). }
    assert (forall r, r <> q -> FL h' r = FL h r) as FLo.
    { intros r N. unfold FL, h', split_heap. rewrite fld_same by done. rewrite fld_opt_same by done.
      rewrite fld_same by done. by rewrite lookup_insert_ne. }
    assert (ids (l1 ++ with_size sz e :: n :: l2) = ids l1 ++ p :: q :: ids l2) as Eids.
    { rewrite ids_app. cbn. by rewrite In. }
    constructor.
    - rewrite Eids. apply seg_mid. split; [|split].
      + eapply seg_ext; [|exact P1]. intros r Hr. rewrite PLo; [|intros ->; apply (ND12 _ Hr), elem_of_list_here|by intros ->].
        rewrite decide_False; [done|]. intros H. subst nx. destruct (ids l2); [done|]. injection H as ->.
        apply (ND12 _ Hr). apply elem_of_list_further, elem_of_list_here.
      + rewrite PLp. done.
      + cbn [seg]. split; [exact PLq|]. eapply seg_bef; [done| |exact P3].
        intros r Hr. rewrite PLo by (by intros ->). subst nx. destruct (ids l2); [by apply elem_of_nil in Hr|]. done.
    - intros a Ha. apply elem_of_app in Ha as [Ha|[->|[->|Ha]%elem_of_cons]%elem_of_cons].
      + assert (e_id a <> p). { intros E. apply (ND12 (e_id a)); [by apply ids_elem|rewrite E; apply elem_of_list_here]. }
        assert (e_id a <> q). { intros E. apply Nq1. rewrite <- E. by apply ids_elem. }
        unfold h', split_heap. rewrite fld_other by done. rewrite fld_opt_same by done.
        rewrite fld_other by done. rewrite lookup_insert_ne by done. apply (c_dat _ _ _ _ C), elem_of_app. by left.
      + cbn [with_size e_id]. fold p. unfold h', split_heap. rewrite fld_same by done. rewrite fld_opt_same by done.
        rewrite fld_alter, lookup_insert_ne, Eb by done. cbn. unfold dat, edat. cbn. by rewrite Ds, Do, Df.
      + rewrite In. unfold h', split_heap. rewrite fld_same by done. rewrite fld_opt_same by done.
        rewrite fld_other by done. rewrite lookup_insert. cbn. by rewrite Dn.
      + assert (e_id a <> p). { intros E. apply NDp. rewrite <- E. by apply ids_elem. }
        assert (e_id a <> q). { intros E. apply Nq2. rewrite <- E. by apply ids_elem. }
        unfold h', split_heap. rewrite fld_other by done. rewrite fld_opt_same by done.
        rewrite fld_other by done. rewrite lookup_insert_ne by done. apply (c_dat _ _ _ _ C), elem_of_app.
        right. by apply elem_of_list_further.
    - intros r Hr. rewrite Eids. destruct (decide (r = q)) as [->|N].
      + apply elem_of_app. right. apply elem_of_list_further, elem_of_list_here.
      + unfold h', split_heap in Hr. rewrite some_alter, some_alter_opt, some_alter, lookup_insert_ne in Hr by done.
        apply (c_dom _ _ _ _ C) in Hr. rewrite ids_app in Hr. cbn in Hr. fold (ids l2) p in Hr.
        rewrite elem_of_app, elem_of_cons in Hr. rewrite elem_of_app, !elem_of_cons. tauto.
    - apply C.
    - intros j m Hj. destruct (c_bk _ _ _ _ C _ _ Hj) as [B S]. split; [done|]. eapply seg_ext; [|exact S].
      intros r Hr. apply FLo. intros ->. apply (c_fr _ _ _ _ C _ _ _ Hj) in Hr as (a & Ia & Ea & _).
      destruct (core_here _ _ _ _ _ C Ia) as (b' & E' & _). congruence.
    - rewrite Eids. apply NoDup_app. split_and!; [done| |].
      + intros r H1 [->|[->|H2]%elem_of_cons]%elem_of_cons; [apply (ND12 _ H1), elem_of_list_here|done|].
        apply (ND12 _ H1). by apply elem_of_list_further.
      + apply NoDup_cons. split; [|by apply NoDup_cons]. intros [?|?]%elem_of_cons; done.
    - apply C.
    - intros j m r Hj. rewrite (c_fr _ _ _ _ C _ _ _ Hj).
      split; intros (a & Ia & Ea & Fa & Ba); exists a; (split; [|done]).
      + apply elem_of_app in Ia as [?|[->|?]%elem_of_cons]; [|congruence|]; apply elem_of_app; [by left|].
        right. by do 2 apply elem_of_list_further.
      + apply elem_of_app in Ia as [?|[->|[->|?]%elem_of_cons]%elem_of_cons]; [|cbn in Fa; congruence|congruence|];
          apply elem_of_app; [by left|]. right. by apply elem_of_list_further.
  Qed.

  (** Merging: [a] takes over the header [e] that follows it, neither free. *)
  Definition absorb_heap (h : h_t) (v p : nat) (nx : option nat) (f : block -> block) : h_t :=
    delete p (alter_opt (set_prev (Some v)) nx (alter (set_next nx) v (alter f v h))).
  Lemma absorb_core h bk l1 a e l2 fr : core h bk (l1 ++ a :: e :: l2) fr -> e_free a = false -> e_free e = false ->
    core (absorb_heap h (e_id a) (e_id e) (hd (ids l2) None) (set_size (e_size a + e_size e))) bk
      (l1 ++ with_size (e_size a + e_size e) a :: l2) fr.
  Proof.
    intros C Fa Fe. set (v := e_id a) in *. set (p := e_id e) in *. set (nx := hd (ids l2) None) in *.
    assert (a ∈ l1 ++ a :: e :: l2) as Ha by (apply elem_of_app; right; apply elem_of_list_here).
    assert (e ∈ l1 ++ a :: e :: l2) as He by (apply elem_of_app; right; apply elem_of_list_further, elem_of_list_here).
    destruct (core_here _ _ _ _ _ C Ha) as (b & Eb & Db). fold v in Eb. injection Db as Ds Dz Do Df.
    destruct (core_here _ _ _ _ _ C He) as (b2 & Eb2 & _). fold p in Eb2.
    pose proof (c_phys _ _ _ _ C) as P. rewrite ids_app in P. cbn [ids map] in P. fold (ids l2) in P. fold p v in P.
    apply seg_mid in P as (P1 & P2 & [P3 P4]). unfold PL in P2. rewrite Eb in P2. cbn in P2. injection P2 as Pp Pnx.
    pose proof (c_nodup _ _ _ _ C) as ND. rewrite ids_app in ND. cbn in ND. fold (ids l2) in ND. fold p v in ND.
    pose proof ND as (ND1 & ND12 & [NDv [NDp ND2]%NoDup_cons]%NoDup_cons)%NoDup_app.
    apply not_elem_of_cons in NDv as [Nvp NDv].
    assert (v ∉ ids l1) as Nv1. { intros H. apply (ND12 _ H), elem_of_list_here. }
    assert (p ∉ ids l1) as Np1. { intros H. apply (ND12 _ H). apply elem_of_list_further, elem_of_list_here. }
    assert (nx <> Some v) as Nnv. { subst nx. destruct (ids l2); cbn; [done|]. intros [= ->]. apply NDv, elem_of_list_here. }
    assert (nx <> Some p) as Nnp. { subst nx. destruct (ids l2); cbn; [done|]. intros [= ->]. apply NDp, elem_of_list_here. }
    set (h' := absorb_heap h v p nx (set_size (e_size a + e_size e))).
    assert (PL h' v = Some (lst None (ids l1), nx)) as PLv.
    { unfold PL, h', absorb_heap. rewrite lookup_delete_ne by done. rewrite lookup_alter_opt_ne by done.
      rewrite !lookup_alter, Eb. cbn. by rewrite <- Pp. }
    assert (forall r, r <> v -> r <> p -> PL h' r = if decide (nx = Some r) then (fun bn => (Some v, bn.2)) <$> PL h r else PL h r) as PLo.
    { intros r N1 N2. unfold PL, h', absorb_heap. rewrite lookup_delete_ne by done. rewrite fld_opt.
      rewrite !lookup_alter_ne by done. destruct (decide (nx = Some r)); by destruct (h !! r). }
    assert (forall r, r <> p -> FL h' r = FL h r) as FLo.
    { intros r N. unfold FL, h', absorb_heap. rewrite lookup_delete_ne by done. rewrite fld_opt_same by done.
      by rewrite !fld_same by done. }
    assert (ids (l1 ++ with_size (e_size a + e_size e) a :: l2) = ids l1 ++ v :: ids l2) as Eids by (by rewrite ids_app).
    constructor.
    - rewrite Eids. apply seg_mid. split; [|split].
      + eapply seg_ext; [|exact P1]. intros r Hr. rewrite PLo by (by intros ->).
        rewrite decide_False; [done|]. intros H. subst nx. destruct (ids l2); [done|]. injection H as ->.
        apply (ND12 _ Hr). by do 2 apply elem_of_list_further; apply elem_of_list_here.
      + exact PLv.
      + eapply seg_bef; [done| |exact P4].
        intros r Hr. rewrite PLo by (by intros ->). subst nx. destruct (ids l2); [by apply elem_of_nil in Hr|]. done.
    - assert (forall c, c ∈ l1 \/ c ∈ l2 -> e_id c <> v /\ e_id c <> p) as Oth.
      { intros c [H|H]; apply ids_elem in H; split; intros E; rewrite E in H; done. }
      assert (forall c, c ∈ l1 \/ c ∈ l2 -> dat <$> h' !! e_id c = Some (edat c)) as Od.
      { intros c Hc. destruct (Oth c Hc) as [O1 O2]. unfold h', absorb_heap. rewrite lookup_delete_ne by done.
        rewrite fld_opt_same by done. rewrite !fld_other by done. apply (c_dat _ _ _ _ C), elem_of_app.
        destruct Hc; [by left|right; by do 2 apply elem_of_list_further]. }
      intros c Hc. apply elem_of_app in Hc as [Hc|[->|Hc]%elem_of_cons]; [apply Od; by left| |apply Od; by right].
      cbn [with_size e_id]. fold v. unfold h', absorb_heap. rewrite lookup_delete_ne by done. rewrite fld_opt_same by done.
      rewrite fld_same by done. rewrite fld_alter, Eb. cbn. unfold dat, edat. cbn. by rewrite Ds, Do, Df.
    - intros r Hr. rewrite Eids. unfold h', absorb_heap in Hr. destruct (decide (r = p)) as [->|N].
      + rewrite lookup_delete in Hr. by destruct Hr.
      + rewrite lookup_delete_ne, some_alter_opt, !some_alter in Hr by done.
        apply (c_dom _ _ _ _ C) in Hr. rewrite ids_app in Hr. cbn in Hr. fold (ids l2) p v in Hr.
        rewrite elem_of_app, !elem_of_cons in Hr. rewrite elem_of_app, !elem_of_cons. tauto.
    - apply C.
    - intros j m Hj. destruct (c_bk _ _ _ _ C _ _ Hj) as [B S]. split; [done|]. eapply seg_ext; [|exact S].
      intros r Hr. apply FLo. intros ->. apply (c_fr _ _ _ _ C _ _ _ Hj) in Hr as (c & Ic & Ec & Fc & _).
      assert (c = e) as ->; [|congruence]. by eapply ids_inj; [apply (c_nodup _ _ _ _ C)|..].
    - rewrite Eids. apply NoDup_app. split_and!; [done| |by apply NoDup_cons].
      intros r H1 [->|H2]%elem_of_cons; [done|]. apply (ND12 _ H1). by do 2 apply elem_of_list_further.
    - apply C.
    - intros j m r Hj. rewrite (c_fr _ _ _ _ C _ _ _ Hj).
      split; intros (c & Ic & Ec & Fc & Bc); exists c; (split; [|done]).
      + apply elem_of_app in Ic as [?|[->|[->|?]%elem_of_cons]%elem_of_cons]; [|congruence|congruence|];
          apply elem_of_app; [by left|]. right. by apply elem_of_list_further.
      + apply elem_of_app in Ic as [?|[->|?]%elem_of_cons]; [|cbn in Fc; congruence|]; apply elem_of_app; [by left|].
        right. by do 2 apply elem_of_list_further.
  Qed.
End core.
