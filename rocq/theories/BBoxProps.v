(** C60 and C80: bounding boxes, in exact arithmetic. *)
From Verif Require Import Base Mat4Model Mat4Spec TransformSpec Mat4Props TransformProps BBoxModel BBoxSpec.
From Coq Require Import Reals Lra Lia.
Open Scope R_scope.

Ltac mm := unfold rmin, rmax in *; repeat match goal with |- context [if Rlt_dec ?a ?b then _ else _] => destruct (Rlt_dec a b) end.
Lemma rmin_le a b c : c <= rmin a b <-> c <= a /\ c <= b.
Proof. mm; lra. Qed.
Lemma rmax_le a b c : rmax a b <= c <-> a <= c /\ b <= c.
Proof. mm; lra. Qed.
Lemma rmin_l a b : rmin a b <= a. Proof. mm; lra. Qed.
Lemma rmin_r a b : rmin a b <= b. Proof. mm; lra. Qed.
Lemma rmax_l a b : a <= rmax a b. Proof. mm; lra. Qed.
Lemma rmax_r a b : b <= rmax a b. Proof. mm; lra. Qed.

(** A non-empty box covers another exactly if its bounds do. *)
Lemma nonempty_bounds b : nonempty b <-> x3 (bmin b) <= x3 (bmax b) /\ y3 (bmin b) <= y3 (bmax b) /\ z3 (bmin b) <= z3 (bmax b).
Proof.
  split.
  - intros (p & (H1 & H2 & H3)). unfold within in *. lra.
  - intros (H1 & H2 & H3). exists (bmin b). unfold inside, within. lra.
Qed.
Lemma covers_bounds b c : nonempty c -> (covers b c <-> x3 (bmin b) <= x3 (bmin c) /\ y3 (bmin b) <= y3 (bmin c) /\ z3 (bmin b) <= z3 (bmin c) /\
  x3 (bmax c) <= x3 (bmax b) /\ y3 (bmax c) <= y3 (bmax b) /\ z3 (bmax c) <= z3 (bmax b)).
Proof.
  intros Ne. apply nonempty_bounds in Ne. split.
  - intros C. destruct (C (bmin c)) as (H1 & H2 & H3); [unfold inside, within; lra|]. destruct (C (bmax c)) as (H4 & H5 & H6); [unfold inside, within; lra|]. unfold within in *. lra.
  - intros B p (H1 & H2 & H3). unfold inside, within in *. lra.
Qed.
Lemma enclose_bounds b t : sound t -> exists c, nonempty c /\ (forall p, is_in p t -> inside p c) /\
  (forall d, (forall p, is_in p t -> inside p d) -> covers d c) /\ enclose b t = enclose_box b c.
Proof.
  destruct t as [q|c]; cbn; intros S.
  - exists (BBox q q). split_and!.
    + exists q. unfold inside, within. cbn. lra.
    + intros p ->. unfold inside, within. cbn. lra.
    + intros d H p (H1 & H2 & H3). unfold within in *. cbn in *. assert (p = q) as -> by (apply v3_ext; lra). apply H. done.
    + done.
  - exists c. destruct S as (Ne & _ & _). split_and!; try done. 
Qed.
Definition below (m a : v3) : Prop := x3 m <= x3 a /\ y3 m <= y3 a /\ z3 m <= z3 a.

Lemma encloses_fold ts : Forall sound ts -> forall b,
  let r := fold_left enclose ts b in
  below (bmin r) (bmin b) /\ below (bmax b) (bmax r) /\ (forall t p, In t ts -> is_in p t -> inside p r) /\
  (forall d, below (bmin d) (bmin b) -> below (bmax b) (bmax d) -> (forall t p, In t ts -> is_in p t -> inside p d) -> below (bmin d) (bmin r) /\ below (bmax r) (bmax d)).
Proof.
  induction 1 as [|t ts St _ IH]; intros b; cbn.
  - unfold below. split_and!; try lra; [intros ? ? []|]. intros d H1 H2 _. unfold below in *. lra.
  - destruct (enclose_bounds b t St) as (c & Ne & Hc & Lc & ->). destruct (IH (enclose_box b c)) as (I1 & I2 & I3 & I4). clear IH.
    assert (E : below (bmin (enclose_box b c)) (bmin b) /\ below (bmax b) (bmax (enclose_box b c)) /\ below (bmin (enclose_box b c)) (bmin c) /\ below (bmax c) (bmax (enclose_box b c))).
    { unfold below, enclose_box. cbn. split_and!; auto using rmin_l, rmin_r, rmax_l, rmax_r. }
    set (r := fold_left enclose ts (enclose_box b c)) in *. split_and!.
    + unfold below in *. lra.
    + unfold below in *. lra.
    + intros t' p [<-|Hin] Hp; [|apply (I3 t'); done]. specialize (Hc p Hp). unfold below, inside, within in *. lra.
    + intros d D1 D2 D3. apply I4; [..|intros; apply (D3 t0); auto].
      * assert (covers d c) as C by (apply Lc; intros; apply (D3 t); auto). apply covers_bounds in C; [|done].
        unfold below, enclose_box in *. cbn. rewrite !rmin_le. lra.
      * assert (covers d c) as C by (apply Lc; intros; apply (D3 t); auto). apply covers_bounds in C; [|done].
        unfold below, enclose_box in *. cbn. rewrite !rmax_le. lra.
Qed.

(** Starting from an empty box, enclosing any points and non-empty boxes gives a box that contains
    each of them, and any box that does contains it. *)
Theorem bbox_enclose (ts : list thing) (b0 : bbox) : ts <> [] -> Forall sound ts -> b0 = bbox_new \/ (exists b, b0 = bbox_reset b) ->
  let r := fold_left enclose ts b0 in
  (forall t p, In t ts -> is_in p t -> inside p r) /\ nonempty r /\
  (forall d, (forall t p, In t ts -> is_in p t -> inside p d) -> covers d r).
Proof.
  intros Ne S B0 r. assert (b0 = bbox_new) as -> by (destruct B0 as [|[b ->]]; done).
  destruct (encloses_fold ts S bbox_new) as (I1 & I2 & I3 & I4). fold r in I1, I2, I3, I4.
  assert (Fm : 0 < FLT_MAX) by (unfold FLT_MAX; apply (IZR_lt 0); reflexivity).
  destruct ts as [|t ts]; [done|].
  assert (P : exists p, is_in p t) by (inversion S as [|? ? St]; destruct t as [q|c]; cbn in *; [eauto|destruct St as ((p & Hp) & _); eauto]).
  assert (Nr : nonempty r) by (destruct P as [p Hp]; exists p; apply (I3 t); cbn; auto).
  split_and!; [done|done|]. intros d D. apply covers_bounds; [done|].
  assert (Hd : nonempty d) by (destruct P as [p Hp]; exists p; apply (D t); cbn; auto).
  assert (Rt : forall t' q, In t' (t :: ts) -> is_in q t' -> representable q).
  { intros t' q Hin Hq. rewrite List.Forall_forall in S. specialize (S _ Hin). destruct t' as [q'|c]; cbn in *; [subst; done|].
    destruct S as (_ & Ra & Rb), Hq as (H1 & H2 & H3). unfold representable, within in *. lra. }
  (* a box that is least among those within the range of f32 *)
  set (d' := BBox (max3 (bmin d) (splat3 FLT_MIN)) (min3 (bmax d) (splat3 FLT_MAX))).
  assert (D' : forall t' q, In t' (t :: ts) -> is_in q t' -> inside q d').
  { intros t' q Hin Hq. destruct (D t' q Hin Hq) as (H1 & H2 & H3). destruct (Rt t' q Hin Hq) as (H4 & H5 & H6). unfold inside, within, d' in *. cbn. rewrite !rmin_le, !rmax_le. lra. }
  assert (Hd' : nonempty d') by (destruct P as [p Hp]; exists p; apply (D' t); cbn; auto). apply nonempty_bounds in Hd'.
  assert (Q : below (bmin d') (splat3 FLT_MAX) /\ below (splat3 FLT_MIN) (bmax d')).
  { unfold below, d' in *. cbn in *. pose proof (rmin_r (x3 (bmax d)) FLT_MAX). pose proof (rmin_r (y3 (bmax d)) FLT_MAX). pose proof (rmin_r (z3 (bmax d)) FLT_MAX).
    pose proof (rmax_r (x3 (bmin d)) FLT_MIN). pose proof (rmax_r (y3 (bmin d)) FLT_MIN). pose proof (rmax_r (z3 (bmin d)) FLT_MIN). lra. }
  destruct (I4 d' (proj1 Q) (proj2 Q) D') as [J1 J2]. unfold below, d' in *. cbn in *.
  pose proof (rmin_l (x3 (bmax d)) FLT_MAX). pose proof (rmin_l (y3 (bmax d)) FLT_MAX). pose proof (rmin_l (z3 (bmax d)) FLT_MAX).
  pose proof (rmax_l (x3 (bmin d)) FLT_MIN). pose proof (rmax_l (y3 (bmin d)) FLT_MIN). pose proof (rmax_l (z3 (bmin d)) FLT_MIN). lra.
Qed.
(** A new box is empty, and [empty()] holds exactly of the boxes without points. *)
Theorem bbox_empty (b : bbox) : (empty b = true <-> ~ nonempty b) /\ empty bbox_new = true /\ empty (bbox_reset b) = true.
Proof.
  assert (E : forall b, empty b = true <-> ~ nonempty b).
  { intros c. rewrite nonempty_bounds. unfold empty, rgt. repeat match goal with |- context [Rlt_dec ?a ?b] => destruct (Rlt_dec a b) end; cbn; split; intros; try done; lra || (exfalso; lra). }
  assert (Fm : 0 < FLT_MAX) by (unfold FLT_MAX; apply (IZR_lt 0); reflexivity).
  split_and!; [apply E|..]; apply E; rewrite nonempty_bounds; cbn; unfold FLT_MIN; lra.
Qed.
(** A box without points that was not made empty by the constructor or [reset] still widens the box
    that encloses it. *)
Theorem bbox_enclose_empty_refuted : exists b c, nonempty b /\ empty c = true /\ ~ covers b (enclose_box b c).
Proof.
  exists (BBox (splat3 0) (splat3 1)), (BBox (V3 5 0 0) (V3 4 1 1)). split_and!.
  - apply nonempty_bounds. cbn. lra.
  - apply bbox_empty. rewrite nonempty_bounds. cbn. lra.
  - intros C. destruct (C (V3 4 0 0)) as (H & _).
    + unfold inside, within, enclose_box. cbn. mm; lra.
    + unfold within in H. cbn in H. lra.
Qed.

(** ** transform *)
Definition lo1 (t a b : R) : R := if Rlt_dec (t * a) (t * b) then t * a else t * b.
Definition hi1 (t a b : R) : R := if Rlt_dec (t * a) (t * b) then t * b else t * a.
Lemma transform_eq b T : transform b T = Ok (let f g (l : v4 -> R) := l (col3 T) + g (l (col0 T)) (x3 (bmin b)) (x3 (bmax b)) + g (l (col1 T)) (y3 (bmin b)) (y3 (bmax b)) + g (l (col2 T)) (z3 (bmin b)) (z3 (bmax b)) in
  BBox (V3 (f lo1 x4) (f lo1 y4) (f lo1 z4)) (V3 (f hi1 x4) (f hi1 y4) (f hi1 z4))).
Proof.
  destruct b as [[m1 m2 m3] [M1 M2 M3]], T as [[a1 a2 a3 a4] [b1 b2 b3 b4] [c1' c2' c3' c4'] [d1 d2 d3 d4]]. unfold transform.
  set (step := fun (i j : nat) (b : bbox) => t ← at_ (Mat (V4 a1 a2 a3 a4) (V4 b1 b2 b3 b4) (V4 c1' c2' c3' c4') (V4 d1 d2 d3 d4)) j i;
    lo ← lane3 (V3 m1 m2 m3) j; hi ← lane3 (V3 M1 M2 M3) j;
    (if Rlt_dec (t * lo) (t * hi) then m ← bump (bmin b) i (t * lo); M ← bump (bmax b) i (t * hi); Ok (BBox m M)
     else m ← bump (bmin b) i (t * hi); M ← bump (bmax b) i (t * lo); Ok (BBox m M))).
  assert (St : forall i j b t lo hi, at_ (Mat (V4 a1 a2 a3 a4) (V4 b1 b2 b3 b4) (V4 c1' c2' c3' c4') (V4 d1 d2 d3 d4)) j i = Ok t -> lane3 (V3 m1 m2 m3) j = Ok lo -> lane3 (V3 M1 M2 M3) j = Ok hi ->
    step i j b = (m ← bump (bmin b) i (lo1 t lo hi); M ← bump (bmax b) i (hi1 t lo hi); Ok (BBox m M))).
  { intros i j b t lo hi E1 E2 E3. unfold step. rewrite E1, E2, E3. cbn [mbind res_bind]. unfold lo1, hi1. destruct (Rlt_dec _ _); done. }
  cbn [bmin bmax col mbind res_bind x4 y4 z4 col3].
  change (for_ 3 0 (fun i b => for_ 3 0 (step i) b) (BBox (V3 d1 d2 d3) (V3 d1 d2 d3)) = Ok (BBox (V3 (d1 + lo1 a1 m1 M1 + lo1 b1 m2 M2 + lo1 c1' m3 M3) (d2 + lo1 a2 m1 M1 + lo1 b2 m2 M2 + lo1 c2' m3 M3) (d3 + lo1 a3 m1 M1 + lo1 b3 m2 M2 + lo1 c3' m3 M3))
    (V3 (d1 + hi1 a1 m1 M1 + hi1 b1 m2 M2 + hi1 c1' m3 M3) (d2 + hi1 a2 m1 M1 + hi1 b2 m2 M2 + hi1 c2' m3 M3) (d3 + hi1 a3 m1 M1 + hi1 b3 m2 M2 + hi1 c3' m3 M3)))).
  clearbody step. cbn [for_].
  rewrite (St 0%nat 0%nat _ a1 m1 M1) by reflexivity. unfold bump; cbn [mbind res_bind lane3 set_lane3 bmin bmax x3 y3 z3].
  rewrite (St 0%nat 1%nat _ b1 m2 M2) by reflexivity. unfold bump; cbn [mbind res_bind lane3 set_lane3 bmin bmax x3 y3 z3].
  rewrite (St 0%nat 2%nat _ c1' m3 M3) by reflexivity. unfold bump; cbn [mbind res_bind lane3 set_lane3 bmin bmax x3 y3 z3].
  rewrite (St 1%nat 0%nat _ a2 m1 M1) by reflexivity. unfold bump; cbn [mbind res_bind lane3 set_lane3 bmin bmax x3 y3 z3].
  rewrite (St 1%nat 1%nat _ b2 m2 M2) by reflexivity. unfold bump; cbn [mbind res_bind lane3 set_lane3 bmin bmax x3 y3 z3].
  rewrite (St 1%nat 2%nat _ c2' m3 M3) by reflexivity. unfold bump; cbn [mbind res_bind lane3 set_lane3 bmin bmax x3 y3 z3].
  rewrite (St 2%nat 0%nat _ a3 m1 M1) by reflexivity. unfold bump; cbn [mbind res_bind lane3 set_lane3 bmin bmax x3 y3 z3].
  rewrite (St 2%nat 1%nat _ b3 m2 M2) by reflexivity. unfold bump; cbn [mbind res_bind lane3 set_lane3 bmin bmax x3 y3 z3].
  rewrite (St 2%nat 2%nat _ c3' m3 M3) by reflexivity. unfold bump; cbn [mbind res_bind lane3 set_lane3 bmin bmax x3 y3 z3].
  reflexivity.
Qed.
Lemma lo_hi t a b x : a <= x <= b -> lo1 t a b <= t * x <= hi1 t a b.
Proof. 
  intros [H1 H2]. unfold lo1, hi1. destruct (Rle_lt_dec 0 t) as [Ht|Ht].
  - pose proof (Rmult_le_compat_l t _ _ Ht H1). pose proof (Rmult_le_compat_l t _ _ Ht H2). destruct (Rlt_dec _ _); lra.
  - pose proof (Rmult_le_compat_neg_l t _ _ ltac:(lra) H1). pose proof (Rmult_le_compat_neg_l t _ _ ltac:(lra) H2). destruct (Rlt_dec _ _); lra.
Qed.
Lemma lo_hi_attained t a b : (lo1 t a b = t * a \/ lo1 t a b = t * b) /\ (hi1 t a b = t * a \/ hi1 t a b = t * b).
Proof. unfold lo1, hi1. destruct (Rlt_dec _ _); auto. Qed.
(** Transforming a non-empty box by any matrix without projective part gives the least box that
    contains the images of its points. *)
Theorem bbox_transform (b : bbox) (T : mat) : nonempty b ->
  exists r, transform b T = Ok r /\ (forall p, inside p b -> inside (mat_point T p) r) /\ nonempty r /\
    (forall d, (forall p, inside p b -> inside (mat_point T p) d) -> covers d r).
Proof.
  intros Ne. rewrite transform_eq. eexists. split; [reflexivity|]. pose proof (proj1 (nonempty_bounds b) Ne) as B.
  assert (I : forall p, inside p b -> inside (mat_point T p) (let f g (l : v4 -> R) := l (col3 T) + g (l (col0 T)) (x3 (bmin b)) (x3 (bmax b)) + g (l (col1 T)) (y3 (bmin b)) (y3 (bmax b)) + g (l (col2 T)) (z3 (bmin b)) (z3 (bmax b)) in
    BBox (V3 (f lo1 x4) (f lo1 y4) (f lo1 z4)) (V3 (f hi1 x4) (f hi1 y4) (f hi1 z4)))).
  { intros p (H1 & H2 & H3). unfold inside, within in *. cbn [bmin bmax x3 y3 z3]. cbv [mat_point xyz add4 mul4 set1 x4 y4 z4 w4 x3 y3 z3].
    destruct T as [[a1 a2 a3 a4] [b1 b2 b3 b4] [c1' c2' c3' c4'] [d1 d2 d3 d4]], p as [p1 p2 p3], b as [[m1 m2 m3] [M1 M2 M3]]. cbn [x3 y3 z3 bmin bmax col0 col1 col2 col3] in *.
    pose proof (lo_hi a1 m1 M1 p1 H1). pose proof (lo_hi a2 m1 M1 p1 H1). pose proof (lo_hi a3 m1 M1 p1 H1).
    pose proof (lo_hi b1 m2 M2 p2 H2). pose proof (lo_hi b2 m2 M2 p2 H2). pose proof (lo_hi b3 m2 M2 p2 H2).
    pose proof (lo_hi c1' m3 M3 p3 H3). pose proof (lo_hi c2' m3 M3 p3 H3). pose proof (lo_hi c3' m3 M3 p3 H3). split_and!; lra. }
  split; [exact I|]. split; [destruct Ne as [p Hp]; exists (mat_point T p); apply I; done|].
  intros d D. assert (Q : forall x y z, (x = x3 (bmin b) \/ x = x3 (bmax b)) -> (y = y3 (bmin b) \/ y = y3 (bmax b)) -> (z = z3 (bmin b) \/ z = z3 (bmax b)) -> inside (mat_point T (V3 x y z)) d).
  { intros x y z Hx Hy Hz. apply D. unfold inside, within. cbn [x3 y3 z3]. destruct Hx as [->| ->], Hy as [->| ->], Hz as [->| ->]; lra. }
  apply covers_bounds. { destruct Ne as [p Hp]; exists (mat_point T p); apply I; done. }
  clear I D. cbn [bmin bmax x3 y3 z3].
  assert (A : forall t a b, (exists x, (x = a \/ x = b) /\ lo1 t a b = t * x) /\ (exists x, (x = a \/ x = b) /\ hi1 t a b = t * x)).
  { intros t a c. destruct (lo_hi_attained t a c) as [[->| ->] [->| ->]]; eauto 10. }
  split_and!;
    match goal with |- context [?l (col3 T) + ?g _ _ _ + _ + _] =>
      destruct (A (l (col0 T)) (x3 (bmin b)) (x3 (bmax b))) as [(x & Hx & Ex) (x' & Hx' & Ex')];
      destruct (A (l (col1 T)) (y3 (bmin b)) (y3 (bmax b))) as [(y & Hy & Ey) (y' & Hy' & Ey')];
      destruct (A (l (col2 T)) (z3 (bmin b)) (z3 (bmax b))) as [(z & Hz & Ez) (z' & Hz' & Ez')];
      destruct (Q x y z Hx Hy Hz) as (K1 & K2 & K3); destruct (Q x' y' z' Hx' Hy' Hz') as (K4 & K5 & K6); rewrite ?Ex, ?Ey, ?Ez, ?Ex', ?Ey', ?Ez' end;
    unfold within in *; revert K1 K2 K3 K4 K5 K6; cbv [mat_point xyz add4 mul4 set1 x4 y4 z4 w4 x3 y3 z3]; destruct T as [[a1 a2 a3 a4] [b1 b2 b3 b4] [c1' c2' c3' c4'] [d1 d2 d3 d4]]; cbn [col0 col1 col2 col3]; intros; lra.
Qed.
(** Transforming an empty box, even by the identity, gives a box with points in it. *)
Theorem bbox_transform_empty_refuted : exists r, empty bbox_new = true /\ transform bbox_new mat_I = Ok r /\ nonempty r /\ inside zero3 r.
Proof.
  rewrite transform_eq. eexists. assert (Fm : 0 < FLT_MAX) by (unfold FLT_MAX; apply (IZR_lt 0); reflexivity).
  assert (I : inside zero3 (let f g (l : v4 -> R) := l (col3 mat_I) + g (l (col0 mat_I)) (x3 (bmin bbox_new)) (x3 (bmax bbox_new)) + g (l (col1 mat_I)) (y3 (bmin bbox_new)) (y3 (bmax bbox_new)) + g (l (col2 mat_I)) (z3 (bmin bbox_new)) (z3 (bmax bbox_new)) in
    BBox (V3 (f lo1 x4) (f lo1 y4) (f lo1 z4)) (V3 (f hi1 x4) (f hi1 y4) (f hi1 z4)))).
  { unfold inside, within, mat_I, bbox_new, splat3, zero3, FLT_MIN. cbn [bmin bmax x3 y3 z3 col0 col1 col2 col3 x4 y4 z4]. unfold lo1, hi1.
    repeat match goal with |- context [if Rlt_dec ?a ?b then _ else _] => destruct (Rlt_dec a b) end; split_and!; lra. }
  split; [apply bbox_empty; exact bbox_new|]. split; [reflexivity|]. split; [eexists; exact I|exact I].
Qed.

(** ** center and surface_area *)
(** The center of a non-empty box is its point halfway between every pair of opposite points; the
    surface area is the sum of the areas of the six faces, is not negative, and grows with the box. *)
Theorem bbox_measure (b c : bbox) : (nonempty b -> inside (center b) b) /\
  (forall p, inside p b <-> inside (sub3 (scale3 (center b) 2) p) b) /\
  (nonempty b -> let w := x3 (bmax b) - x3 (bmin b) in let h := y3 (bmax b) - y3 (bmin b) in let d := z3 (bmax b) - z3 (bmin b) in
     surface_area b = w * h + w * h + w * d + w * d + h * d + h * d) /\
  (~ nonempty b -> surface_area b = 0) /\ 0 <= surface_area b /\ (covers b c -> surface_area c <= surface_area b).
Proof.
  assert (S : forall b, nonempty b -> let w := x3 (bmax b) - x3 (bmin b) in let h := y3 (bmax b) - y3 (bmin b) in let d := z3 (bmax b) - z3 (bmin b) in
     surface_area b = w * h + w * h + w * d + w * d + h * d + h * d).
  { intros a Ne. cbv zeta. unfold surface_area. destruct (empty a) eqn:E; [apply bbox_empty in E; done|]. cbn. ring. }
  assert (Z : forall b, ~ nonempty b -> surface_area b = 0) by (intros a Ne; unfold surface_area; apply bbox_empty in Ne; rewrite Ne; done).
  assert (D : forall b, nonempty b \/ ~ nonempty b).
  { intros a. rewrite nonempty_bounds. destruct (Rle_dec (x3 (bmin a)) (x3 (bmax a))), (Rle_dec (y3 (bmin a)) (y3 (bmax a))), (Rle_dec (z3 (bmin a)) (z3 (bmax a))); tauto. }
  assert (P : forall b, 0 <= surface_area b).
  { intros a. destruct (D a) as [Ne|Ne]; [rewrite S by done; apply nonempty_bounds in Ne; nra|rewrite Z by done; lra]. }
  split_and!; [| |apply S|apply Z|apply P|].
  - intros Ne. apply nonempty_bounds in Ne. unfold inside, within, center. cbn. lra.
  - intros p. unfold inside, within, center. cbn. lra.
  - intros C. destruct (D c) as [Nc|Nc]; [|rewrite (Z c) by done; apply P].
    assert (Nb : nonempty b) by (destruct Nc as [p Hp]; exists p; auto). rewrite (S b), (S c) by done. cbv zeta.
    pose proof (proj1 (covers_bounds b c Nc) C) as K. apply nonempty_bounds in Nc, Nb.
    set (w := x3 (bmax b) - x3 (bmin b)) in *. set (h := y3 (bmax b) - y3 (bmin b)) in *. set (d := z3 (bmax b) - z3 (bmin b)) in *.
    set (w' := x3 (bmax c) - x3 (bmin c)) in *. set (h' := y3 (bmax c) - y3 (bmin c)) in *. set (d' := z3 (bmax c) - z3 (bmin c)) in *.
    assert (0 <= w' <= w) by (unfold w, w'; lra). assert (0 <= h' <= h) by (unfold h, h'; lra). assert (0 <= d' <= d) by (unfold d, d'; lra).
    assert (w' * h' <= w * h) by (apply Rmult_le_compat; lra). assert (w' * d' <= w * d) by (apply Rmult_le_compat; lra). assert (h' * d' <= h * d) by (apply Rmult_le_compat; lra). lra.
Qed.

(** ** project *)
Lemma proj_fold P vs s : let r := fold_left (proj_step P) vs s in
  (p_part r = true <-> p_part s = true \/ exists v, In v vs /\ behind P v) /\ (p_all r = true <-> p_all s = true /\ forall v, In v vs -> behind P v) /\
  (forall c, c <= (p_min r).1 <-> c <= (p_min s).1 /\ forall v, In v vs -> c <= (screen P v).1) /\ (forall c, c <= (p_min r).2 <-> c <= (p_min s).2 /\ forall v, In v vs -> c <= (screen P v).2) /\
  (forall c, (p_max r).1 <= c <-> (p_max s).1 <= c /\ forall v, In v vs -> (screen P v).1 <= c) /\ (forall c, (p_max r).2 <= c <-> (p_max s).2 <= c /\ forall v, In v vs -> (screen P v).2 <= c).
Proof.
  cbv zeta. revert s. induction vs as [|v vs IH]; intros s; cbn [fold_left In].
  - split_and!; [split; [auto|intros [?|(? & [] & _)]; auto]|intuition..].
  - destruct (IH (proj_step P s v)) as (I1 & I2 & I3 & I4 & I5 & I6). rewrite I1, I2. clear I1 I2 IH.
    assert (E : p_min (proj_step P s v) = min2 (p_min s) (screen P v) /\ p_max (proj_step P s v) = max2 (p_max s) (screen P v) /\
      (p_part (proj_step P s v) = true <-> p_part s = true \/ behind P v) /\ (p_all (proj_step P s v) = true <-> p_all s = true /\ behind P v)).
    { unfold proj_step, behind, screen. destruct (Rlt_dec _ _) as [L|L]; cbn; split_and!; try done; intuition; done. }
    destruct E as (E1 & E2 & E3 & E4). rewrite E3, E4. rewrite E1 in I3, I4. rewrite E2 in I5, I6. split_and!.
    + split; [intros [[?|?]|(w & ? & ?)]; eauto 6|]. intros [?|(w & [<-|?] & ?)]; eauto 6.
    + split; [intros [[? ?] HH]; split; [done|]; intros w [<-|?]; auto|]. intros [? HH]. auto 6.
    + intros c. rewrite I3. unfold min2. cbn [fst snd]. rewrite rmin_le. split; [intros [[? ?] HH]; split; [done|]; intros w [<-|?]; auto|]. intros [? HH]. auto 6.
    + intros c. rewrite I4. unfold min2. cbn [fst snd]. rewrite rmin_le. split; [intros [[? ?] HH]; split; [done|]; intros w [<-|?]; auto|]. intros [? HH]. auto 6.
    + intros c. rewrite I5. unfold max2. cbn [fst snd]. rewrite rmax_le. split; [intros [[? ?] HH]; split; [done|]; intros w [<-|?]; auto|]. intros [? HH]. auto 6.
    + intros c. rewrite I6. unfold max2. cbn [fst snd]. rewrite rmax_le. split; [intros [[? ?] HH]; split; [done|]; intros w [<-|?]; auto|]. intros [? HH]. auto 6.
Qed.
(** An affine function that keeps a bound at the corners of a box keeps it in the box. *)
Lemma corner_in b v : In v (corners b) <-> exists x y z, v = V3 x y z /\ (x = x3 (bmin b) \/ x = x3 (bmax b)) /\ (y = y3 (bmin b) \/ y = y3 (bmax b)) /\ (z = z3 (bmin b) \/ z = z3 (bmax b)).
Proof.
  unfold corners. cbn [In]. split.
  - intros H. repeat (destruct H as [H|H]; [subst v; eauto 12|]). destruct H.
  - intros (x & y & z & -> & [->| ->] & [->| ->] & [->| ->]); auto 12.
Qed.
Lemma corners_inside b v : nonempty b -> In v (corners b) -> inside v b.
Proof.
  intros Ne H. apply nonempty_bounds in Ne. apply corner_in in H as (x & y & z & -> & [->| ->] & [->| ->] & [->| ->]); unfold inside, within; cbn; lra.
Qed.
Lemma affine_corners b (k a1 a2 a3 : R) p : inside p b -> exists v, In v (corners b) /\ k + a1 * x3 v + a2 * y3 v + a3 * z3 v <= k + a1 * x3 p + a2 * y3 p + a3 * z3 p.
Proof.
  intros (H1 & H2 & H3). unfold within in *.
  assert (A : forall t m M x, m <= x <= M -> exists w, (w = m \/ w = M) /\ t * w <= t * x).
  { intros t m M x [? ?]. destruct (Rle_lt_dec 0 t); [exists m|exists M]; (split; [auto|nra]). }
  destruct (A a1 _ _ _ H1) as (x & Hx & Lx), (A a2 _ _ _ H2) as (y & Hy & Ly), (A a3 _ _ _ H3) as (z & Hz & Lz).
  exists (V3 x y z). split; [apply corner_in; eauto 12|]. cbn. lra.
Qed.
Lemma mat_point_affine P v : mat_point P v = V3 (x4 (col3 P) + x4 (col0 P) * x3 v + x4 (col1 P) * y3 v + x4 (col2 P) * z3 v)
  (y4 (col3 P) + y4 (col0 P) * x3 v + y4 (col1 P) * y3 v + y4 (col2 P) * z3 v) (z4 (col3 P) + z4 (col0 P) * x3 v + z4 (col1 P) * y3 v + z4 (col2 P) * z3 v).
Proof. unfold mat_point. cbn. apply v3_ext; cbn; ring. Qed.
Lemma low_corner P b p : inside p b -> (exists v, In v (corners b) /\ (screen P v).1 <= (screen P p).1) /\ (exists v, In v (corners b) /\ (screen P v).2 <= (screen P p).2) /\
  (exists v, In v (corners b) /\ (screen P p).1 <= (screen P v).1) /\ (exists v, In v (corners b) /\ (screen P p).2 <= (screen P v).2) /\
  (exists v, In v (corners b) /\ z3 (mat_point P v) <= z3 (mat_point P p)) /\ (exists v, In v (corners b) /\ z3 (mat_point P p) <= z3 (mat_point P v)).
Proof.
  intros I. unfold screen. repeat setoid_rewrite mat_point_affine. cbn [fst snd x3 y3 z3].
  assert (A : forall k a1 a2 a3, (exists v, In v (corners b) /\ k + a1 * x3 v + a2 * y3 v + a3 * z3 v <= k + a1 * x3 p + a2 * y3 p + a3 * z3 p) /\
    (exists v, In v (corners b) /\ k + a1 * x3 p + a2 * y3 p + a3 * z3 p <= k + a1 * x3 v + a2 * y3 v + a3 * z3 v)).
  { intros k a1 a2 a3. split; [apply affine_corners; done|]. destruct (affine_corners b (- k) (- a1) (- a2) (- a3) p I) as (v & Hv & L). exists v. split; [done|lra]. }
  split_and!; apply A.
Qed.
(** For a matrix that needs no perspective division and a non-empty box whose image can be held in
    f32: the rectangle is the least one that contains the image of every point of the box, if none is
    behind; (0,0)-(0,0) if all are; and the whole screen otherwise. *)
Theorem bbox_project_partial (b : bbox) (P : mat) : nonempty b ->
  (forall p, inside p b -> within FLT_MIN (screen P p).1 FLT_MAX /\ within FLT_MIN (screen P p).2 FLT_MAX) ->
  let r := project b P in
  ((forall p, inside p b -> ~ behind P p) -> (forall p, inside p b -> in_rect (screen P p) r) /\
     forall d, (forall p, inside p b -> in_rect (screen P p) d) -> forall q, in_rect q r -> in_rect q d) /\
  ((forall p, inside p b -> behind P p) -> r = ((0, 0), (0, 0))) /\
  ((exists p, inside p b /\ behind P p) -> (exists p, inside p b /\ ~ behind P p) -> r = ((-1, -1), (1, 1))).
Proof.
  intros Ne Rp. unfold project. set (s0 := PS _ _ false true).
  destruct (proj_fold P (corners b) s0) as (F1 & F2 & F3 & F4 & F5 & F6). set (s := fold_left _ _ s0) in *. cbv zeta. cbn [p_part p_all p_min p_max s0 fst snd] in *.
  assert (Ci : forall v, In v (corners b) -> inside v b) by (intros; apply corners_inside; done).
  split_and!.
  - intros Nb.
    assert (Pf : p_part s = false). { apply not_true_is_false. intros T. apply F1 in T as [T|(v & Hv & Bv)]; [done|]. apply (Nb v); auto. }
    assert (Pa : p_all s = false). { apply not_true_is_false. intros T. apply F2 in T as [_ T]. apply (Nb (V3 (x3 (bmin b)) (y3 (bmin b)) (z3 (bmin b)))); [apply Ci|apply T]; left; done. }
    rewrite Pf, Pa. cbn [andb]. split.
    + intros p Hp. destruct (low_corner P b p Hp) as ((v1 & V1 & L1) & (v2 & V2 & L2) & (v3' & V3' & L3) & (v4' & V4' & L4) & _ & _).
      destruct (proj1 (F3 _) (Rle_refl _)) as [_ G1]. destruct (proj1 (F4 _) (Rle_refl _)) as [_ G2]. destruct (proj1 (F5 _) (Rle_refl _)) as [_ G3]. destruct (proj1 (F6 _) (Rle_refl _)) as [_ G4].
      specialize (G1 _ V1). specialize (G2 _ V2). specialize (G3 _ V3'). specialize (G4 _ V4'). unfold in_rect, within. cbn [fst snd]. lra.
    + intros d D q Q. unfold in_rect, within in *. cbn [fst snd] in *. destruct Ne as [p0 Hp0].
      assert (M : forall v, In v (corners b) -> within FLT_MIN (screen P v).1 FLT_MAX /\ within FLT_MIN (screen P v).2 FLT_MAX) by (intros; apply Rp, Ci; done). unfold within in M.
      assert (C0 : In (V3 (x3 (bmin b)) (y3 (bmin b)) (z3 (bmin b))) (corners b)) by (left; done).
      assert (G : rmin d.1.1 FLT_MAX <= (p_min s).1 /\ rmin d.1.2 FLT_MAX <= (p_min s).2 /\ (p_max s).1 <= rmax d.2.1 FLT_MIN /\ (p_max s).2 <= rmax d.2.2 FLT_MIN).
      { split_and!.
        - apply F3. split; [apply rmin_r|]. intros v Hv. pose proof (rmin_l d.1.1 FLT_MAX). destruct (D v (Ci v Hv)). lra.
        - apply F4. split; [apply rmin_r|]. intros v Hv. pose proof (rmin_l d.1.2 FLT_MAX). destruct (D v (Ci v Hv)). lra.
        - apply F5. split; [apply rmax_r|]. intros v Hv. pose proof (rmax_l d.2.1 FLT_MIN). destruct (D v (Ci v Hv)). lra.
        - apply F6. split; [apply rmax_r|]. intros v Hv. pose proof (rmax_l d.2.2 FLT_MIN). destruct (D v (Ci v Hv)). lra. }
      destruct (D _ (Ci _ C0)) as [D1 D2]. destruct (M _ C0) as [M1 M2].
      assert (E1 : rmin d.1.1 FLT_MAX = d.1.1 \/ d.1.1 = FLT_MAX) by (mm; lra). assert (E2 : rmin d.1.2 FLT_MAX = d.1.2 \/ d.1.2 = FLT_MAX) by (mm; lra).
      assert (E3 : rmax d.2.1 FLT_MIN = d.2.1 \/ d.2.1 = FLT_MIN) by (mm; lra). assert (E4 : rmax d.2.2 FLT_MIN = d.2.2 \/ d.2.2 = FLT_MIN) by (mm; lra).
      revert G. mm; lra.
  - intros Ab. assert (Pa : p_all s = true) by (apply F2; split; [done|]; auto). rewrite Pa, andb_false_r. done.
  - intros (p & Hp & Bp) (q & Hq & Bq).
    destruct (low_corner P b p Hp) as (_ & _ & _ & _ & (v & Hv & Lv) & _). destruct (low_corner P b q Hq) as (_ & _ & _ & _ & _ & (w & Hw & Lw)).
    assert (Pp : p_part s = true). { apply F1. right. exists v. unfold behind in *. split; [done|lra]. }
    assert (Pa : p_all s = false). { apply not_true_is_false. intros T. apply F2 in T as [_ T]. specialize (T _ Hw). unfold behind in *. lra. }
    rewrite Pp, Pa. done.
Qed.
(** With the library's own perspective matrix the rectangle does not contain the image of the box, as
    the division by w is left out; and a box behind the camera is not found to be behind. *)
Theorem bbox_project_refuted : let P := proj 90 1 1 in
  let b := BBox (V3 1 0 (-20)) (V3 2 1 (-10)) in let p := V3 1 0 (-20) in
  inside p b /\ divide (mat_vec P (ext p 1)) = V3 (1 / 20) 0 (1 / 20) /\ ~ in_rect (1 / 20, 0) (project b P) /\
  (forall q, ~ behind P q).
Proof.
  cbv zeta. assert (E : proj 90 1 1 = Mat (V4 1 0 0 0) (V4 0 (-1) 0 0) (V4 0 0 0 (-1)) (V4 0 0 1 0)).
  { unfold proj. replace (radians 90 / 2) with (PI / 4) by (unfold radians; field). rewrite tan_PI4. parts; field. }
  rewrite E. assert (Nb : forall q, ~ behind (Mat (V4 1 0 0 0) (V4 0 (-1) 0 0) (V4 0 0 0 (-1)) (V4 0 0 1 0)) q).
  { intros q. unfold behind. rewrite mat_point_affine. cbn. lra. }
  assert (Fm : 4 < FLT_MAX) by (unfold FLT_MAX; apply IZR_lt; reflexivity).
  assert (I : inside (V3 1 0 (-20)) (BBox (V3 1 0 (-20)) (V3 2 1 (-10)))) by (unfold inside, within; cbn; lra).
  split_and!; [done| | |done].
  - unfold divide. cbv [mat_vec ext add4 mul4 set1 x4 y4 z4 w4 x3 y3 z3 col0 col1 col2 col3]. parts; field.
  - destruct (bbox_project_partial (BBox (V3 1 0 (-20)) (V3 2 1 (-10))) (Mat (V4 1 0 0 0) (V4 0 (-1) 0 0) (V4 0 0 0 (-1)) (V4 0 0 1 0))) as (H & _ & _).
    + exists (V3 1 0 (-20)). done.
    + intros q (H1 & H2 & H3). unfold screen. rewrite mat_point_affine. unfold within, FLT_MIN in *. cbn in *. lra.
    + destruct H as [_ H]; [intros; apply Nb|]. intros Q. apply (H ((1, -1), (2, 0))) in Q.
      * unfold in_rect, within in Q. cbn in Q. lra.
      * intros q (H1 & H2 & H3). unfold screen, in_rect. rewrite mat_point_affine. unfold within in *. cbn in *. lra.
Qed.

(** Things to enclose and a box and matrices that meet the hypotheses above. *)
Example bbox_case : Forall sound [Point (V3 1 2 3); Box (BBox (V3 (-1) 0 0) (V3 4 1 1))] /\
  nonempty (BBox (V3 (-1) 0 0) (V3 4 1 1)) /\
  (forall p, inside p (BBox (V3 (-1) 0 0) (V3 4 1 1)) -> within FLT_MIN (screen mat_I p).1 FLT_MAX /\ within FLT_MIN (screen mat_I p).2 FLT_MAX) /\
  (forall p, inside p (BBox (V3 (-1) 0 0) (V3 4 1 1)) -> ~ behind mat_I p) /\ covers (BBox (V3 (-1) 0 0) (V3 4 1 1)) (BBox (V3 0 0 0) (V3 1 1 1)).
Proof.
  assert (Fm : 4 < FLT_MAX) by (unfold FLT_MAX; apply IZR_lt; reflexivity).
  assert (Ne : nonempty (BBox (V3 (-1) 0 0) (V3 4 1 1))) by (apply nonempty_bounds; cbn; lra).
  split_and!; [|done|..].
  - repeat constructor; try done; cbn; unfold FLT_MIN; lra.
  - intros p (H1 & H2 & H3). unfold screen. rewrite mat_point_affine. unfold within, FLT_MIN in *. cbn in *. lra.
  - intros p (H1 & H2 & H3). unfold behind. rewrite mat_point_affine. unfold within in *. cbn in *. lra.
  - intros p (H1 & H2 & H3). unfold inside, within in *. cbn in *. lra.
Qed.

Print Assumptions bbox_enclose.
Print Assumptions bbox_empty.
Print Assumptions bbox_enclose_empty_refuted.
Print Assumptions bbox_transform.
Print Assumptions bbox_transform_empty_refuted.
Print Assumptions bbox_measure.
Print Assumptions bbox_project_partial.
Print Assumptions bbox_project_refuted.
