(** C53: the profiler's account of allocations. *)
From stdpp Require Import gmap.
From Verif Require Import Base Word ProfAllocModel ProfAllocSpec.
Open Scope Z_scope.

(** ** Facts about histories *)
Lemma live_snoc h e : live (h ++ [e]) = after (live h) e.
Proof. unfold live. by rewrite foldl_app. Qed.
Lemma given_snoc n h e : given n (h ++ [e]) = given n h ++ given n [e].
Proof. unfold given. apply omap_app. Qed.
Lemma returned_snoc n h e : returned n (h ++ [e]) = returned n h ++ returned n [e].
Proof. unfold returned. apply omap_app. Qed.
Lemma sum_app a b : sum (a ++ b) = sum a + sum b.
Proof. unfold sum. induction a as [|x a IH]; [done|]. cbn. rewrite IH. lia. Qed.
Lemma count_app {A} (a b : list A) : count (a ++ b) = count a + count b.
Proof. unfold count. rewrite app_length. lia. Qed.
Lemma legal_prefix a b : legal (a ++ b) -> legal a.
Proof. intros L pre n x post ->. apply (L pre n x (post ++ b)). by rewrite <-app_assoc. Qed.
Lemma legal_last h n x : legal (h ++ [Returned n x]) -> exists sz, (n, x, sz) ∈ live h.
Proof. intros L. by apply (L h n x []). Qed.
Lemma bytes_cons b bs : bytes (b :: bs) = size b + bytes bs.
Proof. done. Qed.
Lemma bytes_nonneg bs : (forall b, b ∈ bs -> 0 < size b) -> 0 <= bytes bs /\ (bytes bs = 0 <-> bs = []).
Proof.
  induction bs as [|b bs IH]; intros H; [done|]. rewrite bytes_cons. pose proof (H b ltac:(left)). destruct IH as [A B]; [intros; apply H; by right|]. split; [lia|]. split; [lia|done].
Qed.
Lemma live_given n h m x sz : live_bytes n (h ++ [Given m x sz]) = (if decide (m = n) then sz else 0) + live_bytes n h.
Proof. unfold live_bytes. rewrite live_snoc. cbn [after]. unfold of_name. rewrite filter_cons. cbn [owner fst]. case_decide; [|done]. by rewrite bytes_cons. Qed.
Lemma remove_bytes n m x sz bs : NoDup (map address bs) -> (m, x, sz) ∈ bs ->
  bytes (of_name n (filter (fun b => ~ (owner b = m /\ address b = x)) bs)) = bytes (of_name n bs) - (if decide (m = n) then sz else 0).
Proof.
  induction bs as [|b bs IH]; intros N H; [by apply elem_of_nil in H|]. cbn in N. apply NoDup_cons in N as [N1 N2].
  rewrite filter_cons. apply elem_of_cons in H as [<-|H].
  - rewrite decide_False by (cbn; tauto). assert (filter (fun b => ~ (owner b = m /\ address b = x)) bs = bs) as ->.
    { clear IH N2. induction bs as [|c bs IH]; [done|]. cbn in N1. apply not_elem_of_cons in N1 as [A B]. rewrite filter_cons, decide_True by (intros [_ X]; by apply A). f_equal. by apply IH. }
    unfold of_name. rewrite filter_cons. cbn [owner fst]. case_decide; [|lia]. rewrite bytes_cons. cbn [size snd]. lia.
  - rewrite decide_True. 2:{ intros [_ X]. apply N1. rewrite X. change x with (address (m, x, sz)). by apply elem_of_list_fmap_1. }
    specialize (IH N2 H). unfold of_name in *. rewrite !filter_cons. destruct (decide (owner b = n)); [|done]. rewrite !bytes_cons, IH. lia.
Qed.
Lemma live_returned n h m x sz : NoDup (map address (live h)) -> (m, x, sz) ∈ live h -> live_bytes n (h ++ [Returned m x]) = live_bytes n h - (if decide (m = n) then sz else 0).
Proof. intros. unfold live_bytes. rewrite live_snoc. by apply remove_bytes. Qed.
Lemma max_app a b : foldr Z.max 0 (a ++ b) = Z.max (foldr Z.max 0 a) (foldr Z.max 0 b).
Proof.
  induction a as [|x a IH]; cbn; [|rewrite IH; lia]. symmetry. apply Z.max_r. induction b; cbn; lia.
Qed.
Lemma peak_snoc n h e : 0 <= live_bytes n (h ++ [e]) -> peak n (h ++ [e]) = Z.max (peak n h) (live_bytes n (h ++ [e])).
Proof.
  intros L. unfold peak. rewrite app_length. cbn [length]. rewrite Nat.add_1_r, (seq_S (S (length h))), map_app, max_app. cbn [map foldr Nat.add]. f_equal.
  - f_equal. apply map_ext_in. intros k Hk. apply in_seq in Hk. rewrite take_app_le by lia. done.
  - rewrite (take_ge (h ++ [e])) by (rewrite app_length; cbn; lia). lia.
Qed.
Lemma peak_same n h e : 0 <= live_bytes n (h ++ [e]) <= live_bytes n h -> peak n (h ++ [e]) = peak n h.
Proof.
  intros L. rewrite peak_snoc by lia. apply Z.max_l. etransitivity; [apply L|]. unfold peak. rewrite seq_S, map_app, max_app. cbn [map foldr Nat.add]. rewrite firstn_all. lia.
Qed.

(** ** The invariant *)
Definition holds (c : pc) (x : Z) : Prop := match c with Idle => False | Logging _ y _ | Freeing _ y => y = x end.
Definition about (n : nat) (e : ev) : Prop := match e with Given m _ _ | Returned m _ => m = n end.
Record fits (n : nat) (h : list ev) (p : profile) : Prop := {
  f_allocates : allocates p = count (given n h);
  f_frees : frees p = count (returned n h);
  f_allocate_size : allocate_size p = sum (given n h);
  f_free_size : free_size p = sum (given n h) - live_bytes n h;
  f_now : current_set_size p = live_bytes n h;
  f_high : high_water p = peak n h;
  f_set : forall x sz, current_set p !! x = Some sz <-> (n, x, sz) ∈ live h
}.
Record inv (logs : nat -> bool) (s : st) : Prop := {
  v_heap : forall x, x ∈ heap s <-> (exists n sz, (n, x, sz) ∈ live (log s)) \/ exists t, holds (pcs s t) x;
  v_live : NoDup (map address (live (log s)));
  v_excl : forall t x n sz, holds (pcs s t) x -> (n, x, sz) ∉ live (log s);
  v_one : forall t u x, holds (pcs s t) x -> holds (pcs s u) x -> t = u;
  v_net : net s = Z.of_nat (base.size (heap s));
  v_warn : warnings s = [];
  v_sz : forall b, b ∈ live (log s) -> 0 < size b < 2 ^ 64;
  v_given : forall n sz, sz ∈ given n (log s) -> 0 < sz;
  v_logging : forall t n x sz, pcs s t = Logging n x sz -> logs n = true /\ 0 < sz < 2 ^ 64;
  v_prof : forall n, logs n = true -> fits n (log s) (default new_profile (allocs s !! n));
  v_names : forall n, is_Some (allocs s !! n) <-> logs n = true /\ exists e, e ∈ log s /\ about n e
}.
Lemma inv_init logs : inv logs init.
Proof.
  split; cbn; try done.
  - intros x. split; [set_solver|]. intros [(n & sz & H)|[t H]]; [by apply elem_of_nil in H|done].
  - constructor.
  - intros b H. by apply elem_of_nil in H.
  - intros n sz H. by apply elem_of_nil in H.
  - intros n _. split; cbn; try done. intros x sz. rewrite lookup_empty. split; [done|]. intros H. by apply elem_of_nil in H.
  - intros n. rewrite lookup_empty. split; [intros [? ?]; done|]. intros (_ & e & H & _). by apply elem_of_nil in H.
Qed.
Lemma sum_given_pos l : (forall x, x ∈ l -> 0 < x) -> 0 <= sum l.
Proof. unfold sum. induction l as [|x l IH]; intros H; [done|]. cbn. pose proof (H x ltac:(left)). specialize (IH ltac:(intros; apply H; by right)). lia. Qed.

Lemma add64_ok a b : - 2 ^ 63 <= a + b < 2 ^ 63 -> add64 a b = a + b.
Proof.
  intros H. unfold add64, to_signed. rewrite wrap_wrap by lia. change (64 - 1) with 63. destruct (decide (0 <= a + b)) as [P|P].
  - rewrite wrap_small by (unfold is_u; lia). destruct (Z.ltb_spec (a + b) (2 ^ 63)); lia.
  - assert (wrap 64 (a + b) = a + b + 2 ^ 64) as ->. { rewrite <-(wrap_small 64 (a + b + 2 ^ 64)) by (unfold is_u; lia). unfold wrap. replace (a + b + 2 ^ 64) with (a + b + 1 * 2 ^ 64) by lia. by rewrite Z_mod_plus_full. }
    destruct (Z.ltb_spec (a + b + 2 ^ 64) (2 ^ 63)); lia.
Qed.
Lemma sub64_ok a b : - 2 ^ 63 <= a - b < 2 ^ 63 -> sub64 a b = a - b.
Proof. intros H. unfold sub64. apply (add64_ok a (- b)). lia. Qed.
Lemma to_signed_ok a : 0 <= a < 2 ^ 63 -> to_signed 64 a = a.
Proof. intros H. apply to_signed_small; unfold is_i; change (64 - 1) with 63; lia. Qed.

Lemma count_le {A B} (f : A -> option B) h : count (omap f h) <= count h.
Proof. unfold count. induction h as [|x h IH]; [done|]. cbn. destruct (f x); cbn [length]; lia. Qed.
(** Other allocators' events do not matter *)
Lemma fits_other n h e p : ~ about n e -> 0 <= live_bytes n h -> fits n h p -> fits n (h ++ [e]) p.
Proof.
  intros D L0 [A B C E F G I]. assert (given n (h ++ [e]) = given n h) as Eg.
  { rewrite given_snoc. destruct e as [m x sz|m x]; cbn; [rewrite decide_False by done|]; by rewrite app_nil_r. }
  assert (returned n (h ++ [e]) = returned n h) as Er.
  { rewrite returned_snoc. destruct e as [m x sz|m x]; cbn; [|rewrite decide_False by done]; by rewrite app_nil_r. }
  assert (of_name n (live (h ++ [e])) = of_name n (live h)) as El.
  { rewrite live_snoc. unfold of_name. destruct e as [m x sz|m x]; cbn [after about] in *.
    - by rewrite filter_cons, decide_False.
    - clear -D. induction (live h) as [|b bs IH]; [done|]. rewrite !filter_cons. destruct (decide (owner b = n)) as [O|O].
      + destruct (decide (~ (owner b = m /\ address b = x))) as [K|K]; [|exfalso; apply K; intros [X _]; congruence]. rewrite filter_cons, decide_True by done. by f_equal.
      + destruct (decide (~ (owner b = m /\ address b = x))) as [K|K]; [rewrite filter_cons, decide_False by done|]; done. }
  assert (live_bytes n (h ++ [e]) = live_bytes n h) as Eb by (unfold live_bytes; by rewrite El).
  assert (forall x sz, (n, x, sz) ∈ live (h ++ [e]) <-> (n, x, sz) ∈ live h) as Em.
  { intros x sz. assert (forall bs, (n, x, sz) ∈ of_name n bs <-> (n, x, sz) ∈ bs) as X by (intros bs; unfold of_name; rewrite elem_of_list_filter; cbn; tauto). rewrite <-X, El, X. done. }
  split; rewrite ?Eg, ?Er, ?Eb; try done.
  - rewrite peak_same by lia. done.
  - intros x sz. by rewrite Em.
Qed.
Lemma live_pos logs s n : inv logs s -> 0 <= live_bytes n (log s).
Proof. intros I. apply bytes_nonneg. intros b H. apply elem_of_list_filter in H as [_ H]. apply (v_sz _ _ I) in H. lia. Qed.

(** An allocation is entered *)
Lemma fits_given n h x sz p : fits n h p -> (n, x, sz) ∉ live h -> (forall sz', (n, x, sz') ∉ live h) -> 0 < sz < 2 ^ 64 -> 0 <= live_bytes n h <= sum (given n h) -> in_range (h ++ [Given n x sz]) ->
  let now := add64 (current_set_size p) sz in
  current_set p !! x = None /\
  fits n (h ++ [Given n x sz]) (Profile (add64 (allocates p) 1) (frees p) (add64 (allocate_size p) sz) (free_size p) (Z.max (high_water p) now) now (<[x := sz]> (current_set p))).
Proof.
  intros [A B C E F G I] N1 N Hsz L R. cbn zeta. destruct (R n) as [R1 R2]. rewrite given_snoc, sum_app in R1. cbn in R1. rewrite decide_True in R1 by done. cbn in R1.
  rewrite count_app in R2. change (count [Given n x sz]) with 1 in R2. assert (count (given n h) <= count h) as Lc by apply count_le. assert (0 <= count (given n h)) as C0 by (unfold count; lia).
  assert (live_bytes n (h ++ [Given n x sz]) = live_bytes n h + sz) as Eb by (rewrite live_given, decide_True by done; lia).
  split. { destruct (current_set p !! x) as [u|] eqn:E1; [|done]. apply I in E1. by destruct (N u). }
  split; cbn [allocates frees allocate_size free_size high_water current_set_size current_set].
  - rewrite add64_ok by lia. rewrite A, given_snoc, count_app. cbn. rewrite decide_True by done. done.
  - rewrite returned_snoc. cbn. by rewrite app_nil_r.
  - rewrite add64_ok by lia. rewrite C, given_snoc, sum_app. cbn. rewrite decide_True by done. cbn. lia.
  - rewrite Eb, E, given_snoc, sum_app. cbn. rewrite decide_True by done. cbn. lia.
  - rewrite add64_ok by lia. lia.
  - rewrite add64_ok by lia. rewrite peak_snoc by lia. rewrite Eb, F, G. done.
  - intros y sz'. rewrite live_snoc. cbn [after]. rewrite elem_of_cons. destruct (decide (y = x)) as [->|D].
    + rewrite lookup_insert. split; [intros [= ->]; by left|]. intros [[= ->]|H]; [done|]. by destruct (N sz').
    + rewrite lookup_insert_ne by done. rewrite I. split; [by right|]. intros [[= -> _]|H]; done.
Qed.
(** A block is taken out *)
Lemma fits_returned n h x sz p : fits n h p -> NoDup (map address (live h)) -> (n, x, sz) ∈ live h -> 0 < sz -> 0 <= live_bytes n (h ++ [Returned n x]) -> live_bytes n h <= sum (given n h) -> in_range (h ++ [Returned n x]) ->
  current_set p !! x = Some sz /\
  let size := to_signed 64 sz in
  fits n (h ++ [Returned n x]) (Profile (allocates p) (add64 (frees p) 1) (allocate_size p) (add64 (free_size p) size) (high_water p) (sub64 (current_set_size p) size) (delete x (current_set p))).
Proof.
  intros [A B C E F G I] Nd Hl Hsz L Lg R. destruct (R n) as [R1 R2]. rewrite given_snoc, sum_app in R1. cbn in R1.
  rewrite count_app in R2. change (count [Returned n x]) with 1 in R2. assert (count (returned n h) <= count h) as Lc by apply count_le. assert (0 <= count (returned n h)) as C0 by (unfold count; lia).
  pose proof (live_returned n h n x sz Nd Hl) as Eb. rewrite decide_True in Eb by done.
  split; [by apply I|]. cbn zeta. rewrite to_signed_ok by lia.
  split; cbn [allocates frees allocate_size free_size high_water current_set_size current_set].
  - rewrite given_snoc. cbn. by rewrite app_nil_r.
  - rewrite add64_ok by lia. rewrite B, returned_snoc, count_app. cbn. rewrite decide_True by done. done.
  - rewrite given_snoc. cbn. by rewrite app_nil_r.
  - rewrite add64_ok by lia. rewrite Eb, given_snoc. cbn. rewrite app_nil_r. lia.
  - rewrite sub64_ok by lia. lia.
  - rewrite peak_same by lia. done.
  - intros y sz'. rewrite live_snoc. cbn [after]. rewrite elem_of_list_filter. cbn [owner address fst snd]. destruct (decide (y = x)) as [->|D].
    + rewrite lookup_delete. split; [done|]. intros [X _]. by destruct X.
    + rewrite lookup_delete_ne by done. rewrite I. split; [|tauto]. intros H. split; [|done]. by intros [_ ->].
Qed.
Lemma live_le_given n h : (forall m sz, sz ∈ given m h -> 0 < sz) -> live_bytes n h <= sum (given n h).
Proof.
  induction h as [|e h IH] using rev_ind; intros P; [done|]. rewrite given_snoc, sum_app. specialize (IH ltac:(intros m sz H; apply (P m); rewrite given_snoc; apply elem_of_app; by left)).
  destruct e as [m x sz|m x].
  - rewrite live_given. cbn. case_decide; cbn; lia.
  - cbn. unfold live_bytes in *. rewrite live_snoc. cbn [after].
    assert (forall bs, (forall b, b ∈ bs -> 0 < size b) -> bytes (of_name n (filter (fun b => ~ (owner b = m /\ address b = x)) bs)) <= bytes (of_name n bs)) as X.
    { induction bs as [|b bs IHb]; intros Hb; [done|]. specialize (IHb ltac:(intros; apply Hb; by right)). pose proof (Hb b ltac:(left)). unfold of_name in *. rewrite !filter_cons. case_decide; [rewrite !filter_cons|]; case_decide; rewrite ?bytes_cons; lia. }
    assert (forall b, b ∈ live h -> 0 < size b) as Hb.
    { assert (forall b, b ∈ live h -> size b ∈ given (owner b) h) as Y.
      { clear. induction h as [|e h IH] using rev_ind; intros b H; [by apply elem_of_nil in H|]. rewrite live_snoc in H. rewrite given_snoc, elem_of_app. destruct e as [m x sz|m x]; cbn [after] in H.
        - apply elem_of_cons in H as [->|H]; [right; cbn; rewrite decide_True by done; left|left; by apply IH].
        - apply elem_of_list_filter in H as [_ H]. left. by apply IH. }
      intros b H. apply (P (owner b)). rewrite given_snoc. apply elem_of_app. left. by apply Y. }
    specialize (X _ Hb). lia.
Qed.
Lemma holds_upd s t c u x : holds (upd (pcs s) t c u) x -> (u = t /\ holds c x) \/ (u <> t /\ holds (pcs s u) x).
Proof. unfold upd. case_decide; auto. Qed.
Lemma upd_same {A} (f : nat -> A) t x : upd f t x t = x.
Proof. unfold upd. by rewrite decide_True. Qed.
Lemma upd_other {A} (f : nat -> A) t x u : u <> t -> upd f t x u = f u.
Proof. intros. unfold upd. by rewrite decide_False. Qed.
Lemma live_after_returned h n x sz : NoDup (map address (live h)) -> (n, x, sz) ∈ live h -> forall b, b ∈ live (h ++ [Returned n x]) <-> b ∈ live h /\ address b <> x.
Proof.
  intros N H b. rewrite live_snoc. cbn [after]. rewrite elem_of_list_filter. split.
  - intros [A B]. split; [done|]. intros E. apply A. assert (b = (n, x, sz)) as ->; [|done]. clear A.
    assert (forall bs : list block, NoDup (map address bs) -> forall a b, a ∈ bs -> b ∈ bs -> address a = address b -> a = b) as X.
    { induction bs as [|c bs IH]; intros Nd a1 b1 Ha Hb Eab; [by apply elem_of_nil in Ha|]. cbn in Nd. apply NoDup_cons in Nd as [N1 N2]. apply elem_of_cons in Ha as [->|Ha], Hb as [->|Hb]; [done| | |by apply IH].
      - exfalso. apply N1. rewrite Eab. by apply elem_of_list_fmap_1.
      - exfalso. apply N1. rewrite <-Eab. by apply elem_of_list_fmap_1. }
    by apply (X (live h)).
  - intros [A B]. split; [|done]. by intros [_ X].
Qed.
Lemma live_nodup_returned h n x : NoDup (map address (live h)) -> NoDup (map address (live (h ++ [Returned n x]))).
Proof.
  intros N. rewrite live_snoc. cbn [after]. induction (live h) as [|b bs IH]; [constructor|]. cbn in N. apply NoDup_cons in N as [N1 N2]. rewrite filter_cons. case_decide; [|by apply IH]. cbn. apply NoDup_cons. split; [|by apply IH].
  intros H1. apply N1. apply elem_of_list_fmap in H1 as (c & E & Hc). apply elem_of_list_filter in Hc as [_ Hc]. rewrite E. by apply elem_of_list_fmap_1.
Qed.
Lemma given_returned m h n x : given m (h ++ [Returned n x]) = given m h.
Proof. rewrite given_snoc. cbn. by rewrite app_nil_r. Qed.
Lemma names_insert logs (al : gmap nat profile) h n p e : about n e -> logs n = true -> (forall m, is_Some (al !! m) <-> logs m = true /\ exists e, e ∈ h /\ about m e) ->
  forall m, is_Some (<[n := p]> al !! m) <-> logs m = true /\ exists e', e' ∈ h ++ [e] /\ about m e'.
Proof.
  intros Ab Ln H m. destruct (decide (m = n)) as [->|D].
  - rewrite lookup_insert. split; [|by eexists]. intros _. split; [done|]. exists e. split; [apply elem_of_app; right; left|done].
  - rewrite lookup_insert_ne by done. rewrite H. split; intros (A & e' & B & C); (split; [done|]); exists e'; (split; [|done]); [apply elem_of_app; by left|].
    apply elem_of_app in B as [B|B]; [done|]. apply elem_of_list_singleton in B as ->. exfalso. apply D. destruct e; cbn in *; congruence.
Qed.
Lemma names_hidden logs (al : gmap nat profile) h n e : about n e -> logs n = false -> (forall m, is_Some (al !! m) <-> logs m = true /\ exists e, e ∈ h /\ about m e) ->
  forall m, is_Some (al !! m) <-> logs m = true /\ exists e', e' ∈ h ++ [e] /\ about m e'.
Proof.
  intros Ab Ln H m. rewrite H. split; intros (A & e' & B & C); (split; [done|]); exists e'; (split; [|done]); [apply elem_of_app; by left|].
  apply elem_of_app in B as [B|B]; [done|]. apply elem_of_list_singleton in B as ->. destruct e; cbn in *; congruence.
Qed.

Definition sized (l : label) : Prop := match l with Alloc _ _ sz _ => 0 <= sz < 2 ^ 64 | _ => True end.
Lemma step_inv logs s l : inv logs s -> sized l ->
  (exists s' more, step logs s l = Ok s' /\ log s' = log s ++ more /\ (legal (log s') -> in_range (log s') -> inv logs s')) \/
  (exists t n x, l = Free t n x /\ x <> 0 /\ forall sz, (n, x, sz) ∉ live (log s)).
Proof.
  intros I Sz. destruct l as [t n sz x|t n x|t]; cbn [step].
  - (* Alloc *)
    left. destruct (pcs s t) as [|? ? ?|? ?] eqn:Ep; [|exists s, []; rewrite app_nil_r; done..].
    destruct (Z.eqb_spec sz 0) as [?|Nz]; [exists s, []; rewrite app_nil_r; done|]. destruct (bool_decide (x ∈ heap s)) eqn:Eh; [exists s, []; rewrite app_nil_r; done|]. apply bool_decide_eq_false in Eh.
    destruct (Z.eqb_spec x 0) as [?|Nx]; [exists s, []; rewrite app_nil_r; done|]. cbn [orb]. cbn in Sz.
    assert (forall m sz', (m, x, sz') ∉ live (log s)) as Nl by (intros m sz' H; apply Eh, (v_heap _ _ I); left; eauto).
    assert (forall u, ~ holds (pcs s u) x) as Nh by (intros u H; apply Eh, (v_heap _ _ I); right; eauto).
    destruct (logs n) eqn:Ln.
    + eexists _, []. split; [done|]. cbn [at_pc sys_alloc log]. rewrite app_nil_r. split; [done|]. intros _ _. split; cbn [at_pc sys_alloc log pcs heap net allocs warnings]; try apply I.
      * intros y. rewrite elem_of_union, elem_of_singleton, (v_heap _ _ I). split.
        -- intros [->|[H|[u H]]]; [right; exists t; by rewrite upd_same|by left|]. right. exists u. rewrite upd_other; [done|]. intros ->. by rewrite Ep in H.
        -- intros [H|[u H]]; [by right; left|]. apply holds_upd in H as [[_ H]|[_ H]]; [by left|right; right; eauto].
      * intros u y m sz' H. apply holds_upd in H as [[_ H]|[_ H]]; [cbn in H; subst y; apply Nl|by apply (v_excl _ _ I) with u].
      * intros u w y H1 H2. apply holds_upd in H1 as [[-> H1]|[D1 H1]], H2 as [[-> H2]|[D2 H2]]; cbn in *; subst; [done|by destruct (Nh w)|by destruct (Nh u)|by apply (v_one _ _ I _ _ y)].
      * rewrite size_union by set_solver. rewrite size_singleton, (v_net _ _ I). lia.
      * intros u m y sz'. unfold upd. case_decide; [|apply (v_logging _ _ I)]. intros [= <- <- <-]. split; [done|lia].
    + eexists _, [Given n x sz]. split; [done|]. cbn [saw sys_alloc log]. split; [done|]. intros _ _. split; cbn [saw sys_alloc log pcs heap net allocs warnings]; try apply I.
      * intros y. rewrite elem_of_union, elem_of_singleton, (v_heap _ _ I), live_snoc. cbn [after]. split.
        -- intros [->|[(m & sz' & H)|H]]; [left; exists n, sz; left|left; exists m, sz'; by right|by right].
        -- intros [(m & sz' & H)|H]; [|by right; right]. apply elem_of_cons in H as [[= _ -> _]|H]; [by left|]. right; left; eauto.
      * rewrite live_snoc. cbn. apply NoDup_cons. split; [|apply I]. intros H. apply elem_of_list_fmap in H as ([[m y] sz'] & E & H). cbn in E. subst y. by apply Nl in H.
      * intros u y m sz' H. rewrite live_snoc. cbn [after]. intros H2. apply elem_of_cons in H2 as [[= _ -> _]|H2]; [by destruct (Nh u)|by apply (v_excl _ _ I u y m sz')].
      * rewrite size_union by set_solver. rewrite size_singleton, (v_net _ _ I). lia.
      * intros b H. rewrite live_snoc in H. cbn [after] in H. apply elem_of_cons in H as [->|H]; [cbn; lia|by apply I].
      * intros m sz' H. rewrite given_snoc in H. apply elem_of_app in H as [H|H]; [by apply I in H|]. cbn in H. case_decide; [apply elem_of_list_singleton in H; lia|by apply elem_of_nil in H].
      * intros m Lm. apply fits_other; [cbn; congruence|by apply (live_pos logs)|by apply I].
      * by apply (names_hidden logs _ _ n); [| |apply I].
  - (* Free *)
    destruct (pcs s t) as [|? ? ?|? ?] eqn:Ep; [|left; exists s, []; rewrite app_nil_r; done..].
    destruct (Z.eqb_spec x 0) as [?|Nx]; [left; exists s, []; rewrite app_nil_r; done|].
    destruct (decide (Exists (fun b => owner b = n /\ address b = x) (live (log s)))) as [Ex|Ex].
    2:{ right. exists t, n, x. split; [done|]. split; [done|]. intros sz H. apply Ex. apply Exists_exists. by exists (n, x, sz). }
    left. apply Exists_exists in Ex as ([[n' x'] sz] & Hl & E1 & E2). cbn in E1, E2. subst n' x'.
    pose proof (v_sz _ _ I _ Hl) as Bs. cbn in Bs. pose proof (v_live _ _ I) as Nd. pose proof (live_after_returned _ _ _ _ Nd Hl) as La.
    assert (x ∈ heap s) as Hx by (apply (v_heap _ _ I); left; eauto).
    assert (forall u, ~ holds (pcs s u) x) as Nh by (intros u H; by apply (v_excl _ _ I _ _ n sz) in H).
    assert (0 <= live_bytes n (log s ++ [Returned n x])) as Lp.
    { apply bytes_nonneg. intros b H. apply elem_of_list_filter in H as [_ H]. apply La in H as [H _]. apply (v_sz _ _ I) in H. lia. }
    destruct (logs n) eqn:Ln.
    + pose proof (fun R => fits_returned n (log s) x sz _ (v_prof _ _ I n Ln) Nd Hl (proj1 Bs) Lp (live_le_given n (log s) (v_given _ _ I)) R) as F. cbn zeta in F.
      assert (current_set (default new_profile (allocs s !! n)) !! x = Some sz) as Ec by (by apply (f_set _ _ _ (v_prof _ _ I n Ln))).
      eexists _, [Returned n x]. split; [done|].
      unfold profile_alloc. cbn [saw allocs pcs heap net warnings log]. change (negb (0 =? 0)) with false. cbn iota. rewrite Ec. cbn [at_pc log]. split; [done|]. intros Lg R. destruct (F R) as [_ F']. clear F.
      split; cbn [at_pc log pcs heap net allocs warnings].
      * intros y. rewrite (v_heap _ _ I). split.
        -- intros [(m & sz' & H)|[u H]]; [|right; exists u; rewrite upd_other; [done|]; intros ->; by rewrite Ep in H]. destruct (decide (y = x)) as [->|D]; [right; exists t; by rewrite upd_same|]. left. exists m, sz'. by apply La.
        -- intros [(m & sz' & H)|[u H]]; [apply La in H as [H _]; left; eauto|]. apply holds_upd in H as [[_ H]|[_ H]]; [cbn in H; subst y; left; eauto|right; eauto].
      * by apply live_nodup_returned.
      * intros u y m sz' H H2. apply La in H2 as [H2 D]. cbn in D. apply holds_upd in H as [[_ H]|[_ H]]; [cbn in H; congruence|]. by apply (v_excl _ _ I u y m sz').
      * intros u w y H1 H2. apply holds_upd in H1 as [[-> H1]|[D1 H1]], H2 as [[-> H2]|[D2 H2]]; cbn in *; subst; [done|by destruct (Nh w)|by destruct (Nh u)|by apply (v_one _ _ I _ _ y)].
      * apply I.
      * rewrite (v_warn _ _ I). done.
      * intros b H. apply La in H as [H _]. by apply I.
      * intros m sz' H. rewrite given_returned in H. by apply I in H.
      * intros u m y sz'. unfold upd. case_decide; [done|apply (v_logging _ _ I)].
      * intros m Lm. destruct (decide (m = n)) as [->|D].
        -- rewrite lookup_insert. cbn [default from_option id]. exact F'.
        -- rewrite lookup_insert_ne by done. apply fits_other; [cbn; congruence|by apply (live_pos logs)|by apply I].
      * by apply (names_insert logs _ _ n); [| |apply I].
    + unfold sys_free. cbn [saw heap]. rewrite bool_decide_true by done. eexists _, [Returned n x]. split; [done|]. cbn [log saw]. split; [done|]. intros _ _. split; cbn [saw log pcs heap net allocs warnings]; try apply I.
      * intros y. rewrite elem_of_difference, elem_of_singleton, (v_heap _ _ I). split.
        -- intros [[(m & sz' & H)|H] D]; [left; exists m, sz'; by apply La|by right].
        -- intros [(m & sz' & H)|[u H]]; [apply La in H as [H D]; split; [left; eauto|done]|]. split; [right; eauto|]. intros ->. by destruct (Nh u).
      * by apply live_nodup_returned.
      * intros u y m sz' H H2. apply La in H2 as [H2 D]. by apply (v_excl _ _ I u y m sz').
      * rewrite size_difference by set_solver. rewrite size_singleton, (v_net _ _ I). assert (0 < base.size (heap s))%nat; [|lia]. apply Nat.neq_0_lt_0. intros E. apply size_empty_inv in E. set_solver.
      * intros b H. apply La in H as [H _]. by apply I.
      * intros m sz' H. rewrite given_returned in H. by apply I in H.
      * intros m Lm. apply fits_other; [cbn; congruence|by apply (live_pos logs)|by apply I].
      * by apply (names_hidden logs _ _ n); [| |apply I].
  - (* Go *)
    left. destruct (pcs s t) as [|n x sz|n x] eqn:Ep; [exists s, []; rewrite app_nil_r; done| |].
    + destruct (v_logging _ _ I _ _ _ _ Ep) as [Ln Bs].
      assert (holds (pcs s t) x) as Ht by (by rewrite Ep).
      assert (forall m sz', (m, x, sz') ∉ live (log s)) as Nl by (intros m sz'; by apply (v_excl _ _ I t)).
      pose proof (fun R => fits_given n (log s) x sz _ (v_prof _ _ I n Ln) (Nl n sz) (Nl n) Bs (conj (live_pos _ _ n I) (live_le_given n (log s) (v_given _ _ I))) R) as F. cbn zeta in F.
      assert (current_set (default new_profile (allocs s !! n)) !! x = None) as Ec.
      { destruct (current_set _ !! x) as [u|] eqn:E; [|done]. apply (f_set _ _ _ (v_prof _ _ I n Ln)) in E. by apply Nl in E. }
      eexists _, [Given n x sz]. split; [done|]. unfold profile_alloc. destruct (Z.eqb_spec sz 0) as [?|_]; [lia|]. cbn [negb]. rewrite Ec. cbn [at_pc saw log pcs heap net allocs warnings]. split; [done|]. intros _ R. destruct (F R) as [_ F']. clear F.
      split; cbn [at_pc saw log pcs heap net allocs warnings].
      * intros y. rewrite (v_heap _ _ I), live_snoc. cbn [after]. split.
        -- intros [(m & sz' & H)|[u H]]; [left; exists m, sz'; by right|]. destruct (decide (u = t)) as [->|D]; [rewrite Ep in H; cbn in H; subst y; left; exists n, sz; left|]. right. exists u. by rewrite upd_other.
        -- intros [(m & sz' & H)|[u H]]; [apply elem_of_cons in H as [[= _ -> _]|H]; [right; eauto|left; eauto]|]. apply holds_upd in H as [[_ H]|[_ H]]; [done|right; eauto].
      * rewrite live_snoc. cbn. apply NoDup_cons. split; [|apply I]. intros H. apply elem_of_list_fmap in H as ([[m y] sz'] & E & H). cbn in E. subst y. by apply Nl in H.
      * intros u y m sz' H. rewrite live_snoc. cbn [after]. intros H2. apply holds_upd in H as [[_ H]|[D H]]; [done|]. apply elem_of_cons in H2 as [[= _ -> _]|H2]; [|by apply (v_excl _ _ I u y m sz')]. apply D. by apply (v_one _ _ I _ _ x).
      * intros u w y H1 H2. apply holds_upd in H1 as [[-> H1]|[D1 H1]], H2 as [[-> H2]|[D2 H2]]; try done. by apply (v_one _ _ I _ _ y).
      * apply I.
      * rewrite (v_warn _ _ I). done.
      * intros b H. rewrite live_snoc in H. cbn [after] in H. apply elem_of_cons in H as [->|H]; [cbn; lia|by apply I].
      * intros m sz' H. rewrite given_snoc in H. apply elem_of_app in H as [H|H]; [by apply I in H|]. cbn in H. case_decide; [apply elem_of_list_singleton in H; lia|by apply elem_of_nil in H].
      * intros u m y sz'. unfold upd. case_decide; [done|apply (v_logging _ _ I)].
      * intros m Lm. destruct (decide (m = n)) as [->|D].
        -- rewrite lookup_insert. cbn [default from_option id]. exact F'.
        -- rewrite lookup_insert_ne by done. apply fits_other; [cbn; congruence|by apply (live_pos logs)|by apply I].
      * by apply (names_insert logs _ _ n); [| |apply I].
    + assert (holds (pcs s t) x) as Ht by (by rewrite Ep). assert (x ∈ heap s) as Hx by (apply (v_heap _ _ I); right; eauto).
      unfold sys_free. cbn [at_pc heap]. rewrite bool_decide_true by done. eexists _, []. split; [done|]. cbn [at_pc log]. rewrite app_nil_r. split; [done|]. intros _ _. split; cbn [at_pc log pcs heap net allocs warnings]; try apply I.
      * intros y. rewrite elem_of_difference, elem_of_singleton, (v_heap _ _ I). split.
        -- intros [[H|[u H]] D]; [by left|]. right. exists u. rewrite upd_other; [done|]. intros ->. rewrite Ep in H. cbn in H. congruence.
        -- intros [(m & sz' & H)|[u H]]; [split; [left; eauto|]; intros ->; by apply (v_excl _ _ I t x m sz')|]. apply holds_upd in H as [[_ H]|[D H]]; [done|]. split; [right; eauto|]. intros ->. apply D. by apply (v_one _ _ I _ _ x).
      * intros u y m sz' H. apply holds_upd in H as [[_ H]|[_ H]]; [done|by apply (v_excl _ _ I u)].
      * intros u w y H1 H2. apply holds_upd in H1 as [[-> H1]|[D1 H1]], H2 as [[-> H2]|[D2 H2]]; try done. by apply (v_one _ _ I _ _ y).
      * rewrite size_difference by set_solver. rewrite size_singleton, (v_net _ _ I). assert (0 < base.size (heap s))%nat; [|lia]. apply Nat.neq_0_lt_0. intros E. apply size_empty_inv in E. set_solver.
      * intros u m y sz'. unfold upd. case_decide; [done|apply (v_logging _ _ I)].
Qed.

Definition positive (s : st) : Prop := (forall n sz, sz ∈ given n (log s) -> 0 < sz) /\ forall t n x sz, pcs s t = Logging n x sz -> 0 < sz.
Lemma step_positive logs s l s' : positive s -> sized l -> step logs s l = Ok s' -> positive s' /\ exists more, log s' = log s ++ more.
Proof.
  intros [P1 P2] Sz E. assert (positive s /\ exists more, log s = log s ++ more) as Stay by (split; [done|]; exists []; by rewrite app_nil_r).
  assert (forall n x, positive (saw (Returned n x) s)) as Ret. { intros n x. split; cbn [saw log pcs]; [|done]. intros m sz H. rewrite given_returned in H. by apply P1 in H. }
  assert (forall n x z s, log (profile_alloc n x z s) = log s /\ pcs (profile_alloc n x z s) = pcs s) as PA.
  { intros n x z s1. unfold profile_alloc. destruct (negb _); [done|]. by destruct (current_set _ !! x). }
  destruct l as [t n sz x|t n x|t]; cbn [step] in E.
  - destruct (pcs s t) eqn:Ep; [|injection E as <-; done..]. cbn in Sz. destruct (Z.eqb_spec sz 0); [injection E as <-; done|]. destruct (_ || _); [injection E as <-; done|].
    destruct (logs n); injection E as <-.
    + cbn [at_pc sys_alloc log]. split; [|exists []; by rewrite app_nil_r]. split; cbn [at_pc sys_alloc log pcs]; [done|]. intros u m y sz'. unfold upd. case_decide; [intros [= <- <- <-]; lia|apply P2].
    + cbn [saw sys_alloc log]. split; [|by eexists]. split; cbn [saw sys_alloc log pcs]; [|done]. intros m sz' H. rewrite given_snoc in H. apply elem_of_app in H as [H|H]; [by apply P1 in H|]. cbn in H. case_decide; [apply elem_of_list_singleton in H; lia|by apply elem_of_nil in H].
  - destruct (pcs s t) eqn:Ep; [|injection E as <-; done..]. destruct (Z.eqb_spec x 0); [injection E as <-; done|]. destruct (logs n).
    + injection E as <-. destruct (PA n x 0 (saw (Returned n x) s)) as [A B]. cbn [at_pc log]. split; [|rewrite A; by eexists]. destruct (Ret n x) as [R1 R2]. split; cbn [at_pc log pcs]; [by rewrite A|]. rewrite B. intros u m y sz'. unfold upd. case_decide; [done|apply R2].
    + unfold sys_free in E. destruct (bool_decide _); [|done]. injection E as <-. cbn [saw log]. split; [|by eexists]. apply (Ret n x).
  - destruct (pcs s t) as [|n x sz|n x] eqn:Ep; [by injection E as <-| |].
    + injection E as <-. destruct (PA n x sz s) as [A B]. cbn [at_pc saw log]. rewrite A. split; [|by eexists]. split; cbn [at_pc saw log pcs].
      * rewrite A. intros m sz' H. rewrite given_snoc in H. apply elem_of_app in H as [H|H]; [by apply P1 in H|]. cbn in H. case_decide; [apply elem_of_list_singleton in H; subst; by apply P2 in Ep|by apply elem_of_nil in H].
      * rewrite B. intros u m y sz'. unfold upd. case_decide; [done|apply P2].
    + unfold sys_free in E. destruct (bool_decide _); [|done]. injection E as <-. cbn [at_pc log]. split; [|exists []; by rewrite app_nil_r]. split; cbn [at_pc log pcs]; [done|]. intros u m y sz'. unfold upd. case_decide; [done|apply P2].
Qed.
Lemma run_positive logs ls : forall s s', positive s -> (forall l, l ∈ ls -> sized l) -> run logs s ls = Ok s' -> positive s' /\ exists more, log s' = log s ++ more.
Proof.
  induction ls as [|l ls IH]; intros s s' P Sz E; cbn in E; [injection E as <-; split; [done|]; exists []; by rewrite app_nil_r|].
  destruct (step logs s l) as [s1| | |] eqn:E1; try done. cbn in E. destruct (step_positive _ _ _ _ P ltac:(apply Sz; left) E1) as [P1 [m1 L1]]. destruct (IH s1 s' P1) as [P2 [m2 L2]]; [intros; apply Sz; by right|done|].
  split; [done|]. exists (m1 ++ m2). by rewrite L2, L1, <-app_assoc.
Qed.
Lemma range_prefix a b : (forall n sz, sz ∈ given n (a ++ b) -> 0 < sz) -> in_range (a ++ b) -> in_range a.
Proof.
  intros P R n. destruct (R n) as [R1 R2]. unfold given in R1. rewrite omap_app, sum_app in R1. rewrite count_app in R2. split; [|unfold count in *; lia].
  assert (0 <= sum (given n b)); [|unfold given in *; lia]. apply sum_given_pos. intros x Hx. apply (P n). unfold given. rewrite omap_app. apply elem_of_app. by right.
Qed.
Lemma run_inv logs ls : forall s s', inv logs s -> positive s -> (forall l, l ∈ ls -> sized l) -> run logs s ls = Ok s' -> legal (log s') -> in_range (log s') -> inv logs s'.
Proof.
  induction ls as [|l ls IH]; intros s s' I P Sz E Lg R; cbn in E; [by injection E as <-|].
  destruct (step logs s l) as [s1| | |] eqn:E1; try done. cbn in E. pose proof (Sz l ltac:(left)) as Sl. destruct (step_positive _ _ _ _ P Sl E1) as [P1 [m1 L1]].
  destruct (run_positive logs ls s1 s' P1 ltac:(intros; apply Sz; by right) E) as [P2 [m2 L2]].
  apply (IH s1 s'); [|done|intros; apply Sz; by right|done|done|done].
  destruct (step_inv logs s l I Sl) as [(s1' & more & E1' & _ & K)|(t & n & x & -> & Nx & N)].
  - rewrite E1 in E1'. injection E1' as <-. rewrite L2 in Lg, R. apply K; [by eapply legal_prefix|]. eapply range_prefix; [|exact R]. rewrite <-L2. apply P2.
  - (* not legal *)
    cbn [step] in E1. destruct (pcs s t) eqn:Ep; [|injection E1 as <-; done..]. destruct (Z.eqb_spec x 0); [done|].
    assert (log s1 = log s ++ [Returned n x]) as L1'.
    { destruct (logs n); [injection E1 as <-|unfold sys_free in E1; destruct (bool_decide _); [|done]; by injection E1 as <-]. unfold profile_alloc. cbn [at_pc log]. destruct (negb _); [done|]. by destruct (current_set _ !! x). }
    rewrite L2, L1' in Lg. apply legal_prefix, legal_last in Lg as [sz H]. by apply N in H.
Qed.
Lemma reach logs ls s : sizes_ok ls -> run logs init ls = Ok s -> legal (log s) -> in_range (log s) -> inv logs s.
Proof.
  intros Sz E. apply (run_inv logs ls init); [apply inv_init| |intros l H; destruct l; try done; by apply (Sz t n sz x)|done].
  split; cbn; [|done]. intros n sz H. by apply elem_of_nil in H.
Qed.

(** C53: however the threads interleave, while the program returns only blocks it has to the allocator they came from, nothing
    goes wrong: the only call that could is one that returns something else. *)
Theorem prof_alloc_defined logs ls s l : sizes_ok ls -> run logs init ls = Ok s -> legal (log s) -> in_range (log s) -> sizes_ok [l] ->
  (exists s', step logs s l = Ok s') \/ exists t n x, l = Free t n x /\ x <> 0 /\ forall sz, (n, x, sz) ∉ live (log s).
Proof.
  intros Sz E Lg R Sl. destruct (step_inv logs s l (reach _ _ _ Sz E Lg R)) as [(s' & _ & H & _)|H]; [|left; eauto|by right].
  destruct l; try done. apply (Sl t n sz x). left.
Qed.
(** C53: the profiler never warns, and at every moment its counts, sizes, live bytes and high water mark of each allocator
    that logs are the true ones, as are the blocks it holds for live. *)
Theorem prof_alloc_counts logs ls s : sizes_ok ls -> run logs init ls = Ok s -> legal (log s) -> in_range (log s) ->
  warnings s = [] /\
  forall n, logs n = true -> let p := default new_profile (allocs s !! n) in
    allocates p = count (given n (log s)) /\ frees p = count (returned n (log s)) /\
    allocate_size p = sum (given n (log s)) /\ free_size p = sum (given n (log s)) - live_bytes n (log s) /\
    current_set_size p = live_bytes n (log s) /\ high_water p = peak n (log s) /\
    forall x sz, current_set p !! x = Some sz <-> (n, x, sz) ∈ live (log s).
Proof. intros Sz E Lg R. pose proof (reach _ _ _ Sz E Lg R) as I. split; [apply I|]. intros n Ln. destruct (v_prof _ _ I n Ln) as [? ? ? ? ? ? ?]. done. Qed.
(** C53: once no thread is inside alloc or free, finalize says that memory was leaked exactly if a block of any allocator,
    logged or not, has not been returned; it reports every logged allocator that was used, once, with the true figures, and
    as unbalanced exactly those that have a block not returned. *)
Theorem prof_alloc_finalize logs ls s : sizes_ok ls -> run logs init ls = Ok s -> legal (log s) -> in_range (log s) -> (forall t, pcs s t = Idle) ->
  let lines := fst (finalize s) in
  (snd (finalize s) = true <-> live (log s) <> []) /\
  (forall n, (exists l, l ∈ lines /\ of l = n) <-> logs n = true /\ exists e, e ∈ log s /\ match e with Given m _ _ | Returned m _ => m = n end) /\
  NoDup (map of lines) /\
  forall l, l ∈ lines -> let n := of l in
    l_allocs l = count (given n (log s)) /\ l_frees l = count (returned n (log s)) /\ l_high l = peak n (log s) /\
    l_alloc_size l = sum (given n (log s)) /\ l_free_size l = sum (given n (log s)) - live_bytes n (log s) /\
    unbalanced l = if decide (of_name n (live (log s)) = []) then None else Some (live_bytes n (log s)).
Proof.
  intros Sz E Lg R Id. pose proof (reach _ _ _ Sz E Lg R) as I. cbn zeta. unfold finalize. cbn [fst snd]. split_and!.
  - rewrite (v_net _ _ I). assert (heap s = list_to_set (map address (live (log s)))) as ->.
    { apply set_eq. intros x. rewrite elem_of_list_to_set, elem_of_list_fmap, (v_heap _ _ I). split.
      - intros [(n & sz & H)|[t H]]; [by exists (n, x, sz)|by rewrite Id in H].
      - intros ([[n y] sz] & -> & H). left. eauto. }
    rewrite size_list_to_set by apply I. rewrite map_length. destruct (live (log s)); cbn; [done|]. split; [done|]. intros _. done.
  - intros n. rewrite <-(v_names _ _ I n : _ <-> logs n = true /\ exists e, e ∈ log s /\ about n e). split.
    + intros (l & H & <-). apply elem_of_list_fmap in H as ([m p] & -> & H). apply elem_of_map_to_list in H. cbn. by eexists.
    + intros [p H]. eexists. split; [apply elem_of_list_fmap; exists (n, p); split; [done|by apply elem_of_map_to_list]|done].
  - rewrite map_map. replace (map _ (map_to_list (allocs s))) with ((map_to_list (allocs s)).*1); [apply NoDup_fst_map_to_list|]. apply map_ext. by intros [m p].
  - intros l H. apply elem_of_list_fmap in H as ([n p] & -> & H). apply elem_of_map_to_list in H. cbn [of l_allocs l_frees l_high l_alloc_size l_free_size unbalanced].
    assert (logs n = true) as Ln by (apply (v_names _ _ I n); by eexists). destruct (v_prof _ _ I n Ln) as [A B C D F G _]. rewrite H in *. cbn [default from_option id] in *. split_and!; try done.
    rewrite F. unfold live_bytes. assert (forall b, b ∈ of_name n (live (log s)) -> 0 < size b) as Pos by (intros b Hb; apply elem_of_list_filter in Hb as [_ Hb]; apply (v_sz _ _ I) in Hb; lia).
    destruct (bytes_nonneg _ Pos) as [_ Q]. destruct (Z.eqb_spec (bytes (of_name n (live (log s)))) 0) as [Z0|Z0]; case_decide; tauto.
Qed.

Lemma legal_check h : forallb (fun k => match h !! k with
    | Some (Returned n x) => existsb (fun b => (owner b =? n)%nat && (address b =? x)) (live (take k h)) | _ => true end) (seq 0 (length h)) = true -> legal h.
Proof.
  intros H pre n x post ->. rewrite forallb_forall in H. specialize (H (length pre)). rewrite list_lookup_middle, take_app in H by done. rewrite existsb_exists in H. destruct H as ([[m y] sz] & Hb & E).
  - apply in_seq. rewrite app_length. cbn. lia.
  - cbn in E. apply andb_true_iff in E as [E1 E2]. apply Nat.eqb_eq in E1. apply Z.eqb_eq in E2. subst. exists sz. by apply elem_of_list_In.
Qed.
(** Two threads, two allocators that log and one that does not; an address is used again. *)
Definition demo : list label :=
  [Alloc 0 0 16 100; Alloc 1 1 8 200; Go 1; Go 0; Alloc 1 2 4 300; Free 0 0 100; Alloc 1 0 32 400; Go 0; Go 1; Alloc 0 1 24 100; Go 0; Free 1 2 300; Free 0 1 200; Go 0].
Example prof_alloc_case : let logs := fun n => negb (n =? 2)%nat in
  sizes_ok demo /\
  match run logs init demo with
  | Ok s => log s = [Given 1 200 8; Given 0 100 16; Given 2 300 4; Returned 0 100; Given 0 400 32; Given 1 100 24; Returned 2 300; Returned 1 200] /\
            pcs s 0 = Idle /\ pcs s 1 = Idle /\ legal (log s) /\ in_range (log s) /\ live (log s) = [(1%nat, 100, 24); (0%nat, 400, 32)] /\
            peak 0 (log s) = 32 /\ peak 1 (log s) = 32 /\ live_bytes 1 (log s) = 24 /\ snd (finalize s) = true
  | _ => False
  end.
Proof.
  cbn zeta. split.
  - intros t n sz x H. unfold demo in H. repeat (apply elem_of_cons in H as [H|H]; [try done; injection H as -> -> -> ->; lia|]). by apply elem_of_nil in H.
  - destruct (run _ init demo) as [s| | |] eqn:E; [|by vm_compute in E..].
    assert (log s = [Given 1 200 8; Given 0 100 16; Given 2 300 4; Returned 0 100; Given 0 400 32; Given 1 100 24; Returned 2 300; Returned 1 200] /\ pcs s 0 = Idle /\ pcs s 1 = Idle /\ snd (finalize s) = true) as (El & E0 & E1 & E2).
    { assert (match run (fun n => negb (n =? 2)%nat) init demo with Ok s => log s = [Given 1 200 8; Given 0 100 16; Given 2 300 4; Returned 0 100; Given 0 400 32; Given 1 100 24; Returned 2 300; Returned 1 200] /\ pcs s 0 = Idle /\ pcs s 1 = Idle /\ snd (finalize s) = true | _ => False end) as X by by vm_compute. by rewrite E in X. }
    rewrite El. split_and!; try done.
    + apply legal_check. by vm_compute.
    + intros n. split; [|done]. unfold given. cbn. repeat case_decide; cbn; lia.
Qed.
Close Scope Z_scope.

Print Assumptions prof_alloc_defined.
Print Assumptions prof_alloc_counts.
Print Assumptions prof_alloc_finalize.
