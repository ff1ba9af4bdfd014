(** The parity of the permutation RNG::Stream applies to its state.

    A permutation of 2^64 states that is one cycle is odd.  The steps of squirrel5 (rpp/hash.h:14-31) come in
    groups that are even, so the generator is not one cycle. *)
From Coq Require Import ZArith Lia Bool ZifyBool.
From Verif Require Word HashModel HashProofs.
From mathcomp Require Import all_ssreflect fingroup perm.
Set Implicit Arguments. Unset Strict Implicit. Unset Printing Implicit Defensive.
Local Open Scope Z_scope.

Notation wrap := Word.wrap.
Notation u64 x := (0 <= x < 2 ^ 64).

Section parity.
  Variable M : nat.
  Hypothesis HM : Z.of_nat M = 2 ^ 64.
  Notation T := 'I_M.
  Definition zv (i : T) : Z := Z.of_nat (nat_of_ord i).
  Lemma zv_range i : u64 (zv i).
  Proof. rewrite /zv -HM. case: i => i /= /ltP. lia. Qed.
  Lemma zv_inj i j : zv i = zv j -> i = j.
  Proof. rewrite /zv => E. apply: val_inj => /=. lia. Qed.
  Lemma zv_of z : u64 z -> exists i : T, zv i = z.
  Proof.
    move=> Hz. have L : (Z.to_nat z < M)%N by (apply/ltP; lia).
    exists (Ordinal L). rewrite /zv /=. lia.
  Qed.
  (** The function is a permutation of the 64-bit numbers with the given parity. *)
  Definition par (f : Z -> Z) (b : bool) : Prop := exists s : {perm T}, (forall i, zv (s i) = f (zv i)) /\ odd_perm s = b.
  Lemma par_ext f g b : (forall x, u64 x -> f x = g x) -> par f b -> par g b.
  Proof. move=> E [s [Hs Hb]]. exists s. split=> // i. rewrite Hs. apply: E. exact: zv_range. Qed.
  Lemma par_comp f g a b : par f a -> par g b -> par (fun x => g (f x)) (a (+) b).
  Proof.
    move=> [s [Hs <-]] [t [Ht <-]]. exists (s * t)%g. split; last by rewrite odd_permM.
    move=> i. by rewrite permM Ht Hs.
  Qed.
  Lemma par_id : par (fun x => x) false.
  Proof. exists 1%g. split=> [i|]; by rewrite ?perm1 ?odd_perm1. Qed.
  Lemma par_exists f : (forall x, u64 x -> u64 (f x)) -> (forall x y, u64 x -> u64 y -> f x = f y -> x = y) -> exists b, par f b.
  Proof.
    move=> R I.
    have L (i : T) : (Z.to_nat (f (zv i)) < M)%N by (apply/ltP; have := R _ (zv_range i); lia).
    pose g (i : T) : T := Ordinal (L i).
    have zg i : zv (g i) = f (zv i) by (rewrite /zv /=; have := R _ (zv_range i); rewrite /zv; lia).
    have gi : injective g.
    { move=> i j E. apply: zv_inj. apply: I; [exact: zv_range..|]. by rewrite -!zg E. }
    exists (odd_perm (perm gi)). exists (perm gi). split=> // i. by rewrite permE zg.
  Qed.
  (** A permutation done twice is even, and so is a commutator of involutions. *)
  Lemma par_twice f : (exists b, par f b) -> par (fun x => f (f x)) false.
  Proof. move=> [b H]. have := par_comp H H. by rewrite addbb. Qed.
  Lemma par_commutator f g : (exists b, par f b) -> (exists b, par g b) -> par (fun x => f (g (f (g x)))) false.
  Proof.
    move=> [a F] [b G]. have := par_comp (par_comp (par_comp G F) G) F. by rewrite -addbA addbb.
  Qed.
  Lemma par_unique f a b : par f a -> par f b -> a = b.
  Proof.
    move=> [s [Hs <-]] [t [Ht <-]]. congr (odd_perm _). apply/permP=> i. apply: zv_inj. by rewrite Hs Ht.
  Qed.

  (** ** xorshift: bit [j] takes in bit [j + k], for each [j] in turn *)
  Definition flip (j i x : Z) : Z := if Z.testbit x i then Z.lxor x (2 ^ j) else x.
  Lemma flip_bit j i x p : 0 <= j -> 0 <= p -> Z.testbit (flip j i x) p = xorb (Z.testbit x p) ((p =? j) && Z.testbit x i).
  Proof.
    move=> Hj Hp. rewrite /flip. case E: (Z.testbit x i).
    - rewrite Z.lxor_spec Z.pow2_bits_eqb //. rewrite (Z.eqb_sym j p) andbT. done.
    - rewrite andbF xorb_false_r. done.
  Qed.
  Lemma u64_bits x : 0 <= x -> (forall p, 64 <= p -> Z.testbit x p = false) -> u64 x.
  Proof.
    move=> Hx Hb. have -> : x = x mod 2 ^ 64; last by apply: Z.mod_pos_bound.
    apply: Z.bits_inj' => p Hp. case: (Z.ltb_spec p 64) => Hp'.
    - by rewrite Z.mod_pow2_bits_low.
    - rewrite Z.mod_pow2_bits_high ?Hb //; lia.
  Qed.
  Lemma bits_high x p : u64 x -> 64 <= p -> Z.testbit x p = false.
  Proof. move=> Hx Hp. rewrite -(Z.mod_small x (2 ^ 64)) // Z.mod_pow2_bits_high //; lia. Qed.
  Lemma flip_range j i x : 0 <= j < 64 -> u64 x -> u64 (flip j i x).
  Proof.
    move=> Hj Hx. apply: u64_bits.
    - rewrite /flip. case: (Z.testbit x i); last by lia. apply/Z.lxor_nonneg. have := Z.pow_nonneg 2 j. lia.
    - move=> p Hp. rewrite flip_bit; [|lia..]. rewrite bits_high //. have -> : (p =? j) = false by lia. done.
  Qed.
  Lemma flip_flip j i x : 0 <= j -> i <> j -> 0 <= i -> flip j i (flip j i x) = x.
  Proof.
    move=> Hj N Hi. apply: Z.bits_inj' => p Hp. rewrite !flip_bit //.
    have -> : (i =? j) = false by lia. rewrite andFb xorb_false_r xorb_assoc xorb_nilpotent xorb_false_r. done.
  Qed.
  Lemma flip_par j i : 0 <= j < 64 -> 0 <= i -> i <> j -> exists b, par (flip j i) b.
  Proof.
    move=> Hj Hi N. apply: par_exists; first by move=> x; apply: flip_range.
    move=> x y _ _ E. rewrite -(@flip_flip j i x) -1?(@flip_flip j i y) ?E //; lia.
  Qed.
  Lemma flip_commutator j l i x : 0 <= j -> 0 <= l -> 0 <= i -> i <> j -> l <> j -> l <> i ->
    flip j l (flip l i (flip j l (flip l i x))) = flip j i x.
  Proof.
    move=> Hj Hl Hi N1 N2 N3. apply: Z.bits_inj' => p Hp. rewrite !flip_bit //.
    rewrite !Z.eqb_refl.
    have -> : (i =? l) = false by lia. have -> : (i =? j) = false by lia. have -> : (l =? j) = false by lia.
    rewrite /=. case: (Z.eqb_spec p j) => [Ep|Np]; case: (Z.eqb_spec p l) => [El|Nl] /=; try (subst; lia); subst.
    all: rewrite ?andFb; destruct (Z.testbit x i), (Z.testbit x l), (Z.testbit x j); try reflexivity; by case: (Z.testbit x p).
  Qed.
  Lemma flip_even j i : 0 <= j < 64 -> 0 <= i < 64 -> i <> j -> par (flip j i) false.
  Proof.
    move=> Hj Hi N.
    have [l [Hl [L1 L2]]] : exists l, 0 <= l < 64 /\ l <> j /\ l <> i.
    { case: (Z.eq_dec 0 j) => [E0|N0]; case: (Z.eq_dec 0 i) => [E1|N1]; case: (Z.eq_dec 1 j) => [E2|N2]; case: (Z.eq_dec 1 i) => [E3|N3];
      first [exists 0; lia | exists 1; lia | exists 2; lia]. }
    apply: (par_ext (f := fun x => flip j l (flip l i (flip j l (flip l i x))))); first by move=> x _; apply: flip_commutator; lia.
    apply: par_commutator; apply: flip_par; lia.
  Qed.
  Fixpoint flips (k : Z) (n : nat) (x : Z) : Z :=
    match n with O => x | S n => flip (Z.of_nat n) (Z.of_nat n + k) (flips k n x) end.
  Lemma flips_bit k n x p : 0 < k -> 0 <= p ->
    Z.testbit (flips k n x) p = if p <? Z.of_nat n then xorb (Z.testbit x p) (Z.testbit x (p + k)) else Z.testbit x p.
  Proof.
    move=> Hk. elim: n p => [|n IH] p Hp.
    - have -> : (p <? Z.of_nat 0) = false by lia. done.
    - cbn [flips]. rewrite flip_bit; [|lia..]. rewrite !IH; [|lia..].
      have -> : (Z.of_nat n + k <? Z.of_nat n) = false by lia.
      case: (Z.eqb_spec p (Z.of_nat n)) => [->|Np].
      + rewrite Z.ltb_irrefl. have -> : (Z.of_nat n <? Z.of_nat n.+1) = true by lia. done.
      + rewrite andFb xorb_false_r. have -> : (p <? Z.of_nat n.+1) = (p <? Z.of_nat n) by lia. done.
  Qed.
  Lemma flips_even k n : 0 < k -> Z.of_nat n + k <= 64 -> par (flips k n) false.
  Proof.
    move=> Hk. elim: n => [|n IH] Hn; first exact: par_id.
    cbn [flips]. apply: (par_comp (a := false) (b := false)); first by apply: IH; lia. apply: flip_even; lia.
  Qed.
  Lemma xorshift_even k : 0 < k < 64 -> par (HashModel.xorshift k) false.
  Proof.
    move=> Hk. apply: (par_ext (f := flips k (Z.to_nat (64 - k)))); last by apply: flips_even; lia.
    move=> x Hx. apply: Z.bits_inj' => p Hp. rewrite flips_bit; [|lia..]. rewrite /HashModel.xorshift Z.lxor_spec Z.shiftr_spec //.
    case: (Z.ltb_spec p (Z.of_nat (Z.to_nat (64 - k)))) => // H. rewrite (bits_high (p := p + k)) // ?xorb_false_r //. lia.
  Qed.

  (** ** Adding a constant *)
  Definition add (c x : Z) : Z := wrap 64 (x + c).
  Lemma wrap_u64 x : u64 (wrap 64 x).
  Proof. by apply: Z.mod_pos_bound. Qed.
  Lemma add_par c : exists b, par (add c) b.
  Proof. apply: par_exists => [x _|x y Hx Hy]; [exact: wrap_u64|exact: HashProofs.add_inj]. Qed.
  Lemma add_add c d x : add d (add c x) = add (c + d) x.
  Proof. rewrite /add Word.wrap_add_l. congr (wrap _ _). lia. Qed.
  Lemma add_even c : par (add (c + c)) false.
  Proof. apply: (par_ext (f := fun x => add c (add c x))); first by move=> x _; apply: add_add. apply: par_twice. exact: add_par. Qed.

  (** ** Multiplying by 1 + 4 k: each bit, from the top, adds a multiple of its own value *)
  Definition controlled (i d x : Z) : Z := if Z.testbit x i then wrap 64 (x + d) else x.
  Lemma add_bit i e x : 0 <= i < 64 -> Z.testbit (wrap 64 (x + e * 2 ^ (i + 1))) i = Z.testbit x i.
  Proof.
    move=> Hi. rewrite /wrap Z.mod_pow2_bits_low; last by lia.
    rewrite -(@Z.mod_pow2_bits_low (x + _) (i + 1) i); last by lia.
    rewrite Z_mod_plus_full Z.mod_pow2_bits_low //. lia.
  Qed.
  Lemma controlled_par i e : 0 <= i < 64 -> exists b, par (controlled i (e * 2 ^ (i + 1))) b.
  Proof.
    move=> Hi. apply: par_exists.
    - move=> x Hx. rewrite /controlled. case: (Z.testbit x i) => //. exact: wrap_u64.
    - move=> x y Hx Hy. rewrite /controlled. case Ex: (Z.testbit x i); case Ey: (Z.testbit y i) => E.
      + exact: HashProofs.add_inj E.
      + move: Ex. rewrite -(@add_bit i e x) // E Ey. done.
      + move: Ey. rewrite -(@add_bit i e y) // -E Ex. done.
      + done.
  Qed.
  Lemma controlled_even i k : 0 <= i < 64 -> par (controlled i (4 * k * 2 ^ i)) false.
  Proof.
    move=> Hi. apply: (par_ext (f := fun x => controlled i (k * 2 ^ (i + 1)) (controlled i (k * 2 ^ (i + 1)) x))); last by apply: par_twice; apply: controlled_par.
    move=> x Hx. rewrite /controlled. case E: (Z.testbit x i); rewrite ?E // add_bit // E Word.wrap_add_l.
    congr (wrap _ _). rewrite Z.pow_add_r; [|lia..]. lia.
  Qed.
  Definition mulhi (k n x : Z) : Z := wrap 64 (x + 4 * k * 2 ^ n * (x / 2 ^ n)).
  Lemma mulhi_step k n x : 0 < n <= 64 -> mulhi k (n - 1) x = controlled (n - 1) (4 * k * 2 ^ (n - 1)) (mulhi k n x).
  Proof.
    move=> Hn. rewrite /controlled /mulhi.
    have P : 2 ^ n = 2 ^ (n - 1) * 2 by (rewrite -(Z.pow_add_r 2 (n - 1) 1); [congr (_ ^ _)|..]; lia).
    have -> : 4 * k * 2 ^ n * (x / 2 ^ n) = (4 * k * (x / 2 ^ n)) * 2 ^ (n - 1 + 1) by (replace (n - 1 + 1) with n by lia; lia).
    rewrite add_bit; last by lia.
    have B : Z.testbit x (n - 1) = negb (x / 2 ^ (n - 1) mod 2 =? 0).
    { rewrite -Z.testbit_spec'; last by lia. by case: (Z.testbit x (n - 1)). }
    have Q : x / 2 ^ (n - 1) = 2 * (x / 2 ^ n) + x / 2 ^ (n - 1) mod 2.
    { rewrite P -Z.div_div; [|have := Z.pow_pos_nonneg 2 (n - 1); lia..]. exact: Z.div_mod. }
    have R : 0 <= x / 2 ^ (n - 1) mod 2 < 2 by apply: Z.mod_pos_bound.
    replace (n - 1 + 1) with n by lia. rewrite B. move: R Q. set q := x / 2 ^ (n - 1). set b := q mod 2. move=> R Q.
    case: (Z.eqb_spec b 0) => E /=; rewrite ?Word.wrap_add_l; congr (wrap _ _); rewrite Q P.
    - rewrite E. ring.
    - replace b with 1 by lia. ring.
  Qed.
  Lemma mulhi_even k (n : nat) : (n <= 64)%coq_nat -> par (mulhi k (64 - Z.of_nat n)) false.
  Proof.
    elim: n => [|n IH] Hn.
    - apply: (par_ext (f := fun x => x)); last exact: par_id. move=> x Hx. rewrite /mulhi Z.sub_0_r Z.div_small //.
      rewrite Z.mul_0_r Z.add_0_r. symmetry. by apply: Z.mod_small.
    - apply: (par_ext (f := fun x => controlled (64 - Z.of_nat n - 1) (4 * k * 2 ^ (64 - Z.of_nat n - 1)) (mulhi k (64 - Z.of_nat n) x))).
      + move=> x _. rewrite -mulhi_step; last by lia. by replace (64 - Z.of_nat n.+1) with (64 - Z.of_nat n - 1) by lia.
      + apply: (par_comp (a := false) (b := false)); first by apply: IH; lia. apply: controlled_even. lia.
  Qed.
  Definition mul (c x : Z) : Z := wrap 64 (x * c).
  Lemma mul_even k : par (mul (1 + 4 * k)) false.
  Proof.
    apply: (par_ext (f := mulhi k (64 - Z.of_nat 64))); last by apply: mulhi_even.
    move=> x _. rewrite /mulhi /mul. change (2 ^ (64 - Z.of_nat 64)) with 1. rewrite Z.div_1_r. congr (wrap _ _). ring.
  Qed.
  Lemma mul_par c i : wrap 64 (c * i) = 1 -> exists b, par (mul c) b.
  Proof. move=> E. apply: par_exists => [x _|x y Hx Hy]; [exact: wrap_u64|exact: (HashProofs.mul_inj _ _ _ _ E)]. Qed.
  Lemma mul_mul c d x : mul d (mul c x) = mul (c * d) x.
  Proof. rewrite /mul Word.wrap_mul_l. congr (wrap _ _). lia. Qed.

  Lemma add_pair c d : Z.Even (c + d) -> exists b, par (add c) b /\ par (add d) b.
  Proof.
    move=> [h E]. have [b1 H1] := add_par c. have [b2 H2] := add_par d. exists b1. split=> //.
    have C : par (add (h + h)) (b1 (+) b2).
    { apply: (par_ext (f := fun x => add d (add c x))); last exact: par_comp. move=> x _. rewrite add_add E. congr add. lia. }
    have F := par_unique C (add_even h). have -> : b1 = b2 by move: F; case: (b1); case: (b2). done.
  Qed.
  Lemma mul_pair c d i j : wrap 64 (c * i) = 1 -> wrap 64 (d * j) = 1 -> c * d mod 4 = 1 -> exists b, par (mul c) b /\ par (mul d) b.
  Proof.
    move=> Hi Hj E. have [b1 H1] := mul_par Hi. have [b2 H2] := mul_par Hj. exists b1. split=> //.
    have C : par (mul (1 + 4 * (c * d / 4))) (b1 (+) b2).
    { apply: (par_ext (f := fun x => mul d (mul c x))); last exact: par_comp. move=> x _. rewrite mul_mul. congr mul.
      have := Z.div_mod (c * d) 4. lia. }
    have F := par_unique C (mul_even _). have -> : b1 = b2 by move: F; case: (b1); case: (b2). done.
  Qed.
  Lemma squirrel5_even : par HashModel.squirrel5 false.
  Proof.
    have M1 : par (mul HashModel.BIT_NOISE1) false.
    { have := mul_even (HashModel.BIT_NOISE1 / 4). by have -> : 1 + 4 * (HashModel.BIT_NOISE1 / 4) = HashModel.BIT_NOISE1 by vm_compute. }
    have [a [A2 A4]] : exists b, par (add HashModel.BIT_NOISE2) b /\ par (add HashModel.BIT_NOISE4) b.
    { apply: add_pair. by apply/Z.even_spec; vm_compute. }
    have [m [M3 M5]] : exists b, par (mul HashModel.BIT_NOISE3) b /\ par (mul HashModel.BIT_NOISE5) b.
    { by apply: (@mul_pair _ _ 0xC4BEFB7435D0001B 0x2FB79CA89CF0BE97); vm_compute. }
    have X9 : par (HashModel.xorshift 9) false by apply: xorshift_even; lia. have X11 : par (HashModel.xorshift 11) false by apply: xorshift_even; lia. have X13 : par (HashModel.xorshift 13) false by apply: xorshift_even; lia.
    have X15 : par (HashModel.xorshift 15) false by apply: xorshift_even; lia. have X17 : par (HashModel.xorshift 17) false by apply: xorshift_even; lia.
    have P := par_comp (par_comp (par_comp (par_comp (par_comp (par_comp (par_comp (par_comp (par_comp M1 X9) A2) X11) M3) X13) A4) X15) M5) X17.
    have E : false (+) false (+) a (+) false (+) m (+) false (+) a (+) false (+) m (+) false = false by case: (a); case: (m).
    rewrite E in P. apply: (par_ext _ P) => x _. rewrite /mul /add /HashModel.squirrel5. reflexivity.
  Qed.
  (** Every orbit comes back to where it started, and leaves out some state. *)
  Lemma orbit_some f x : par f false -> u64 x ->
    (exists n, (0 < n)%coq_nat /\ Z.of_nat n < 2 ^ 64 /\ iter n f x = x) /\
    (exists y, u64 y /\ forall n, iter n f x <> y).
  Proof.
    move=> [s [Hs Hodd]] /zv_of [i <-].
    have It n : iter n f (zv i) = zv (iter n s i) by elim: n => //= n ->; rewrite Hs.
    have Ev : odd M = false.
    { have E : Z.of_nat M = 2 * (2 ^ 63) by rewrite HM. have -> : M = (Z.to_nat (2 ^ 63)).*2; last by rewrite odd_double.
      rewrite -addnn /addn /addn_rec. lia. }
    have NT : porbit s i != [set: T].
    { apply/eqP => E. move: Hodd. rewrite /odd_perm card_ord Ev /=.
      have -> : porbits s = [set [set: T]]; last by rewrite cards1.
      apply/setP => A. rewrite inE. apply/imsetP/eqP => [[j _ ->]|->].
      - rewrite -E. apply/eqP. rewrite eq_porbit_mem E inE. done.
      - by exists i. }
    have [j Hj] : exists j, j \notin porbit s i.
    { apply/existsP. rewrite -negb_forall. apply: contra NT => /forallP F. apply/eqP/setP => j. by rewrite F inE. }
    split.
    - exists #|porbit s i|. split; [|split].
      + apply/ltP. by apply/card_gt0P; exists i; exact: porbit_id.
      + have : (#|porbit s i| < #|[set: T]|)%N by apply: proper_card; rewrite properT.
        rewrite cardsT card_ord => /ltP. lia.
      + by rewrite It iter_porbit.
    - exists (zv j). split; first exact: zv_range.
      move=> n. rewrite It => /zv_inj E. move: Hj. rewrite -E -permX. by rewrite mem_porbit.
  Qed.
End parity.

Lemma iter_nat_iter A (f : A -> A) n x : iter n f x = Nat.iter n f x.
Proof. by elim: n => //= n ->. Qed.
Lemma squirrel5_orbit x : u64 x ->
  (exists n, (0 < n)%coq_nat /\ Z.of_nat n < 2 ^ 64 /\ Nat.iter n HashModel.squirrel5 x = x) /\
  (exists y, u64 y /\ forall n, Nat.iter n HashModel.squirrel5 x <> y).
Proof.
  have [M HM] : exists M, Z.of_nat M = 2 ^ 64 by exists (Z.to_nat (2 ^ 64)); apply: Z2Nat.id.
  move=> Hx. have [[n [H1 [H2 H3]]] [y [Hy H]]] := orbit_some HM (squirrel5_even HM) Hx. split.
  - exists n. by rewrite -iter_nat_iter.
  - exists y. by split=> // k; rewrite -iter_nat_iter.
Qed.
Print Assumptions squirrel5_orbit.
