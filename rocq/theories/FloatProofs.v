(** * Rounding of SpecFloat.binary_normalize at 53 bits, for integers. *)
From Coq Require Import ZArith Lia Zpower SpecFloat.
From Verif Require Import GoBase DatasetModel DatasetSpec.
Local Open Scope Z_scope.

Lemma pow_pos_sum a b : 0 <= a -> 0 <= b -> 2 ^ (a + b) = 2 ^ a * 2 ^ b.
Proof. apply Z.pow_add_r. Qed.
Lemma digits2_pos_bounds p : 2 ^ (Zpos (digits2_pos p) - 1) <= Zpos p < 2 ^ Zpos (digits2_pos p).
Proof.
  assert (Hstep : forall q x : positive, 2 ^ (Zpos q - 1) <= Zpos x < 2 ^ Zpos q ->
    2 ^ (Zpos (Pos.succ q) - 1) <= 2 * Zpos x /\ 2 * Zpos x + 1 < 2 ^ Zpos (Pos.succ q)).
  { intros q x [H1 H2]. rewrite Pos2Z.inj_succ. unfold Z.succ. replace (Zpos q + 1 - 1) with ((Zpos q - 1) + 1) by lia.
    rewrite (Z.pow_add_r 2 (Zpos q - 1) 1), (Z.pow_add_r 2 (Zpos q) 1) by lia. change (2 ^ 1) with 2. lia. }
  induction p as [p IH|p IH|]; cbn [digits2_pos].
  - apply Hstep in IH. rewrite (Pos2Z.inj_xI p). lia.
  - apply Hstep in IH. rewrite (Pos2Z.inj_xO p). lia.
  - split; vm_compute; [intros H; discriminate H|reflexivity].
Qed.
Lemma digits2_pos_unique p d : 0 < d -> 2 ^ (d - 1) <= Zpos p < 2 ^ d -> Zpos (digits2_pos p) = d.
Proof.
  intros Hd [H1 H2]. destruct (digits2_pos_bounds p) as [H3 H4].
  destruct (Z.lt_trichotomy (Zpos (digits2_pos p)) d) as [Hlt|[?|Hgt]]; [|done|].
  - assert (2 ^ Zpos (digits2_pos p) <= 2 ^ (d - 1)) by (apply Z.pow_le_mono_r; lia). lia.
  - assert (2 ^ d <= 2 ^ (Zpos (digits2_pos p) - 1)) by (apply Z.pow_le_mono_r; lia). lia.
Qed.

Lemma iter_pos_nat {A} (f : A -> A) p x : SpecFloat.iter_pos f p x = Nat.iter (Pos.to_nat p) f x.
Proof.
  assert (Hadd : forall n m y, Nat.iter (n + m) f y = Nat.iter n f (Nat.iter m f y)).
  { induction n as [|n IH]; intros m y; simpl; [done|]. by rewrite IH. }
  revert x. induction p as [p IH|p IH|]; intros x; cbn [SpecFloat.iter_pos]; [| |done].
  - rewrite !IH, Pos2Nat.inj_xI. replace (S (2 * Pos.to_nat p))%nat with (Pos.to_nat p + (Pos.to_nat p + 1))%nat by lia.
    by rewrite !Hadd.
  - rewrite !IH, Pos2Nat.inj_xO. replace (2 * Pos.to_nat p)%nat with (Pos.to_nat p + Pos.to_nat p)%nat by lia. by rewrite Hadd.
Qed.

(** State of the right shift after [n] steps. *)
Definition shifted (x : Z) (n : Z) (q : shr_record) : Prop :=
  exists rem, x = shr_m q * 2 ^ n + rem /\ 0 <= rem < 2 ^ n /\ 0 <= shr_m q /\
    match shr_r q, shr_s q with
    | false, false => rem = 0
    | false, true => 0 < 2 * rem < 2 ^ n
    | true, false => 2 * rem = 2 ^ n
    | true, true => 2 ^ n < 2 * rem
    end.
Lemma shr_1_shifted x n q : 0 <= n -> shifted x n q -> shifted x (n + 1) (shr_1 q).
Proof.
  intros Hn (rem & Hx & Hrem & Hm & Hrs). destruct q as [m r s]; simpl in *.
  assert (Hp : 0 < 2 ^ n) by (apply Z.pow_pos_nonneg; lia).
  assert (Hpow : 2 ^ (n + 1) = 2 * 2 ^ n) by (rewrite Z.pow_add_r by lia; lia). unfold shifted. rewrite Hpow.
  destruct m as [|[p|p|]|]; try lia; simpl.
  - exists rem. split_and!; [lia|lia|lia|lia|]. destruct r, s; simpl; lia.
  - exists (2 ^ n + rem). rewrite (Pos2Z.inj_xI p) in Hx. split_and!; [lia|lia|lia|lia|]. destruct r, s; simpl; lia.
  - exists rem. rewrite (Pos2Z.inj_xO p) in Hx. split_and!; [lia|lia|lia|lia|]. destruct r, s; simpl; lia.
  - exists (2 ^ n + rem). split_and!; [lia|lia|lia|lia|]. destruct r, s; simpl; lia.
Qed.
Lemma shr_iter x p : 0 <= x -> shifted x (Zpos p) (SpecFloat.iter_pos shr_1 p (Build_shr_record x false false)).
Proof.
  intros Hx. rewrite iter_pos_nat, <-(positive_nat_Z p). generalize (Pos.to_nat p) as n. induction n as [|n IH].
  - exists 0. simpl. lia.
  - rewrite Nat2Z.inj_succ. unfold Z.succ. simpl. apply shr_1_shifted; [lia|done].
Qed.

Definition f64 : spec_float -> Prop := fun f => valid_binary 53 1024 f = true.
Lemma fexp64 e : -1021 <= e -> fexp 53 1024 e = e - 53.
Proof. intros H. unfold fexp, emin. lia. Qed.
(** A mantissa of 53 bits is not rounded. *)
Lemma round_aux_full s m e : Zpos (digits2_pos m) = 53 -> -1074 <= e <= 971 ->
  binary_round_aux 53 1024 s (Zpos m) e loc_Exact = S754_finite s m e.
Proof.
  intros Hd He. unfold binary_round_aux, shr_fexp. cbn [Zdigits2 shr_record_of_loc]. rewrite Hd, fexp64 by lia.
  replace (53 + e - 53 - e) with 0 by lia. cbn [shr shr_m loc_of_shr_record round_nearest_even Zdigits2 shr_record_of_loc].
  rewrite Hd, fexp64 by lia. replace (53 + e - 53 - e) with 0 by lia. cbn [shr shr_m].
  assert (Zle_bool e (1024 - 53) = true) as -> by (apply Zle_imp_le_bool; lia). done.
Qed.
Lemma valid_full s m e : Zpos (digits2_pos m) = 53 -> -1074 <= e <= 971 -> f64 (S754_finite s m e).
Proof.
  intros Hd He. unfold f64, valid_binary, bounded, canonical_mantissa. rewrite Hd, fexp64 by lia.
  replace (53 + e - 53) with e by lia.
  assert (Zeq_bool e e = true) as -> by (by apply Zeq_is_eq_bool). apply Zle_imp_le_bool. lia.
Qed.
(** At most 53 bits: exact. *)
Lemma round_small s m e : Zpos (digits2_pos m) <= 53 -> -1021 <= Zpos (digits2_pos m) + e <= 1024 ->
  exists m' e', binary_round 53 1024 s m e = S754_finite s m' e' /\ f64 (S754_finite s m' e') /\
    e' <= e /\ Zpos m' = Zpos m * 2 ^ (e - e').
Proof.
  intros Hd He. pose proof (digits2_pos_bounds m) as Hb. set (d := Zpos (digits2_pos m)) in *.
  unfold binary_round. rewrite fexp64 by (subst d; lia). fold d.
  unfold shl_align. destruct (d + e - 53 - e) as [|p|p] eqn:Ep; [| |].
  - exists m, e. assert (d = 53) by lia. rewrite round_aux_full by (subst d; lia).
    split_and!; [done|apply valid_full; subst d; lia|lia|]. rewrite Z.sub_diag. change (2 ^ 0) with 1. lia.
  - lia.
  - assert (Hm : Zpos (shift_pos p m) = Zpos m * 2 ^ Zpos p).
    { rewrite shift_pos_correct, Zpower_pos_nat, Zpower_nat_Z, positive_nat_Z. lia. }
    assert (Hp : Zpos p = 53 - d) by lia.
    assert (Hd' : Zpos (digits2_pos (shift_pos p m)) = 53).
    { apply digits2_pos_unique; [lia|]. rewrite Hm, Hp. assert (0 < 2 ^ (53 - d)) by (apply Z.pow_pos_nonneg; lia).
      assert (E1 : 2 ^ (53 - 1) = 2 ^ (d - 1) * 2 ^ (53 - d)) by (rewrite <-Z.pow_add_r by lia; f_equal; lia).
      assert (E2 : 2 ^ 53 = 2 ^ d * 2 ^ (53 - d)) by (rewrite <-Z.pow_add_r by lia; f_equal; lia).
      rewrite E1, E2. nia. }
    exists (shift_pos p m), (d + e - 53). rewrite round_aux_full by lia.
    split_and!; [done|apply valid_full; lia|lia|]. rewrite Hm. do 2 f_equal. lia.
Qed.

(** Nearest integer multiple, ties to even. *)
Definition nearest_multiple (x n M : Z) : Prop :=
  2 * Z.abs (x - M * 2 ^ n) <= 2 ^ n /\ (2 * Z.abs (x - M * 2 ^ n) = 2 ^ n -> Z.even M = true).
Lemma round_shifted x n q : 0 < n -> shifted x n q ->
  nearest_multiple x n (round_nearest_even (shr_m q) (loc_of_shr_record q)) /\
  shr_m q <= round_nearest_even (shr_m q) (loc_of_shr_record q) <= shr_m q + 1.
Proof.
  intros Hn (rem & Hx & Hrem & Hm & Hrs). destruct q as [m r s]; cbn [shr_m shr_r shr_s] in *.
  assert (Hp : 0 < 2 ^ n) by (apply Z.pow_pos_nonneg; lia). unfold nearest_multiple.
  destruct r, s; cbn [loc_of_shr_record round_nearest_even].
  - replace (x - (m + 1) * 2 ^ n) with (rem - 2 ^ n) by lia. split; [|lia]. split; [lia|]. intros; lia.
  - destruct (Z.even m) eqn:Ev.
    + replace (x - m * 2 ^ n) with rem by lia. split; [|lia]. split; [lia|done].
    + replace (x - (m + 1) * 2 ^ n) with (rem - 2 ^ n) by lia. split; [|lia]. split; [lia|]. intros _.
      rewrite Z.add_1_r, Z.even_succ, <-Z.negb_even, Ev. done.
  - replace (x - m * 2 ^ n) with rem by lia. split; [|lia]. split; [lia|]. intros; lia.
  - replace (x - m * 2 ^ n) with rem by lia. split; [|lia]. split; [lia|]. intros; lia.
Qed.
(** More than 53 bits. *)
Lemma round_big s m : 53 < Zpos (digits2_pos m) <= 1023 ->
  exists m' e' M, binary_round 53 1024 s m 0 = S754_finite s m' e' /\ f64 (S754_finite s m' e') /\
    0 < e' /\ Zpos m' * 2 ^ e' = M * 2 ^ (Zpos (digits2_pos m) - 53) /\ 2 ^ 52 <= M <= 2 ^ 53 /\
    nearest_multiple (Zpos m) (Zpos (digits2_pos m) - 53) M.
Proof.
  intros Hd. pose proof (digits2_pos_bounds m) as Hb. set (d := Zpos (digits2_pos m)) in *.
  unfold binary_round. rewrite fexp64 by (subst d; lia). fold d. unfold shl_align.
  destruct (d + 0 - 53 - 0) as [|p|p] eqn:Ep; [lia| |lia].
  unfold binary_round_aux. unfold shr_fexp at 1. cbn [Zdigits2 shr_record_of_loc]. fold d. rewrite fexp64 by lia. rewrite Ep. cbn [shr].
  replace (0 + Zpos p) with (d - 53) by lia.
  pose proof (shr_iter (Zpos m) p) as Hsh. set (q := SpecFloat.iter_pos shr_1 p _) in *. specialize (Hsh ltac:(lia)).
  assert (Hpd : Zpos p = d - 53) by lia. rewrite Hpd in Hsh.
  assert (Hpos : 0 < d - 53) by lia. destruct (round_shifted _ _ _ Hpos Hsh) as [Hnear HM]. set (M := round_nearest_even _ _) in *.
  assert (Hq : 2 ^ 52 <= shr_m q < 2 ^ 53).
  { destruct Hsh as (rem & Hx & Hrem & Hq0 & _).
    assert (E1 : 2 ^ (d - 1) = 2 ^ 52 * 2 ^ (d - 53)) by (rewrite <-Z.pow_add_r by lia; f_equal; lia).
    assert (E2 : 2 ^ d = 2 ^ 53 * 2 ^ (d - 53)) by (rewrite <-Z.pow_add_r by lia; f_equal; lia).
    assert (0 < 2 ^ (d - 53)) by (apply Z.pow_pos_nonneg; lia). rewrite E1, E2 in Hb. nia. }
  destruct M as [|M'|M'] eqn:EM; [lia| |lia].
  destruct (Z.eq_dec (Zpos M') (2 ^ 53)) as [Hfull|Hnot].
  - assert (M' = (2 ^ 53)%positive) as -> by (injection Hfull as ->; done).
    unfold shr_fexp. cbn [Zdigits2 shr_record_of_loc].
    assert (Zpos (digits2_pos (2 ^ 53)) = 54) as -> by (vm_compute; reflexivity). rewrite fexp64 by lia.
    replace (54 + (d - 53) - 53 - (d - 53)) with 1 by lia. cbn [shr].
    assert (shr_m (SpecFloat.iter_pos shr_1 1 {| shr_m := Zpos (2 ^ 53); shr_r := false; shr_s := false |}) = Zpos (2 ^ 52)) as ->
      by (vm_compute; reflexivity).
    cbn beta iota. exists (2 ^ 52)%positive, (d - 53 + 1), (Zpos (2 ^ 53)).
    assert (Zle_bool (d - 53 + 1) (1024 - 53) = true) as -> by (apply Zle_imp_le_bool; lia).
    split_and!; [done|apply valid_full; [vm_compute; reflexivity|lia]|lia| |lia|lia|done].
    rewrite Z.pow_add_r by lia. change (Zpos (2 ^ 53)) with (Zpos (2 ^ 52) * 2). lia.
  - assert (Hd53 : Zpos (digits2_pos M') = 53) by (apply digits2_pos_unique; [lia|]; change (53 - 1) with 52; lia).
    unfold shr_fexp. cbn [Zdigits2 shr_record_of_loc]. rewrite Hd53, fexp64 by lia.
    replace (53 + (d - 53) - 53 - (d - 53)) with 0 by lia. cbn [shr shr_m].
    exists M', (d - 53), (Zpos M'). assert (Zle_bool (d - 53) (1024 - 53) = true) as -> by (apply Zle_imp_le_bool; lia).
    split_and!; [done|apply valid_full; lia|lia|done|lia|lia|done].
Qed.

(** ** Consequences *)
Lemma dyadic_eq_shift a e b f : f <= e -> a * 2 ^ (e - f) = b -> dyadic_eq a e b f.
Proof.
  intros Hle <-. unfold dyadic_eq, scale. simpl. rewrite Z.min_r by lia. rewrite Z.sub_diag. change (2 ^ 0) with 1. lia.
Qed.
Lemma dyadic_eq_shift' a e b f : e <= f -> a = b * 2 ^ (f - e) -> dyadic_eq a e b f.
Proof.
  intros Hle ->. unfold dyadic_eq, scale. simpl. rewrite Z.min_l by lia. rewrite Z.sub_diag. change (2 ^ 0) with 1. lia.
Qed.
Lemma digits_of_bound p b : 0 <= b -> Zpos p < 2 ^ b -> Zpos (digits2_pos p) <= b.
Proof.
  intros Hb H. destruct (digits2_pos_bounds p) as [H1 _]. destruct (Z.le_gt_cases (Zpos (digits2_pos p)) b) as [|Hgt]; [done|].
  assert (2 ^ b <= 2 ^ (Zpos (digits2_pos p) - 1)) by (apply Z.pow_le_mono_r; lia). lia.
Qed.
Lemma signed_scale s m e : forall a, Zpos a = Zpos m * 2 ^ e -> signed s a = signed s m * 2 ^ e.
Proof. intros a H. destruct s; simpl; lia. Qed.

Lemma normalize_pos s m e szero : binary_normalize 53 1024 (signed s m) e szero = binary_round 53 1024 s m e.
Proof. by destruct s. Qed.
Lemma signed_cases z : z = 0 \/ exists s m, z = signed s m /\ Z.abs z = Zpos m.
Proof. destruct z as [|p|p]; [by left|right; by exists false, p|right; by exists true, p]. Qed.

Lemma float_exact_small s m : Zpos (digits2_pos m) <= 53 ->
  f64 (float_of_int (signed s m)) /\ float_is (float_of_int (signed s m)) (signed s m) 0.
Proof.
  intros Hd. unfold float_of_int. rewrite normalize_pos.
  destruct (round_small s m 0) as (m' & e' & -> & Hv & He' & Hm'); [done|lia|].
  split; [done|]. apply dyadic_eq_shift'; [done|]. by apply signed_scale.
Qed.
Lemma float_exact z : Z.abs z <= 2 ^ 53 -> f64 (float_of_int z) /\ float_is (float_of_int z) z 0.
Proof.
  intros Hz. destruct (signed_cases z) as [->|(s & m & -> & Hm)]; [done|].
  destruct (Z.eq_dec (Zpos m) (2 ^ 53)) as [E|E].
  - assert (m = (2 ^ 53)%positive) as -> by (injection E as ->; done). unfold float_of_int. rewrite normalize_pos.
    destruct (round_big s (2 ^ 53)%positive) as (m' & e' & M & -> & Hv & He' & HM & _ & Hn); [vm_compute; done|].
    split; [done|]. unfold float_is.
    assert (Hd : Zpos (digits2_pos (2 ^ 53)) = 54) by (vm_compute; done). rewrite Hd in *.
    assert (M = 2 ^ 52) as ->.
    { destruct Hn as [Hn He]. change (2 ^ (54 - 53)) with 2 in Hn, He. change (Zpos (2 ^ 53)) with (2 ^ 53) in *.
      destruct (Z.eq_dec M (2 ^ 52)) as [|Hne]; [done|]. exfalso.
      assert (Hc : M = 2 ^ 52 + 1 \/ M = 2 ^ 52 - 1 \/ 2 <= Z.abs (M - 2 ^ 52)) by lia. lia. }
    apply dyadic_eq_shift; [lia|]. rewrite Z.sub_0_r.
    assert (Zpos m' * 2 ^ e' = Zpos (2 ^ 53)) as H53 by (rewrite HM; vm_compute; done).
    destruct s; simpl signed; lia.
  - apply float_exact_small. apply digits_of_bound; lia.
Qed.
(** Nearest among all numbers [a * 2^b] with at most 53 bits. *)
Lemma nearest_best x n M a b : 0 < n -> 2 ^ 52 * 2 ^ n <= x < 2 ^ 53 * 2 ^ n -> nearest_multiple x n M -> 2 ^ 52 <= M <= 2 ^ 53 ->
  Z.abs a < 2 ^ 53 ->
  (0 <= b -> Z.abs (x - M * 2 ^ n) <= Z.abs (x - a * 2 ^ b)) /\
  (b < 0 -> Z.abs (x - M * 2 ^ n) * 2 ^ (- b) <= Z.abs (x * 2 ^ (- b) - a)).
Proof.
  intros Hn Hx [Hnear _] HM Ha. assert (Hp : 0 < 2 ^ n) by (apply Z.pow_pos_nonneg; lia).
  (* every multiple of 2^n is at least as far *)
  assert (Hmult : forall k, Z.abs (x - M * 2 ^ n) <= Z.abs (x - k * 2 ^ n)).
  { intros k. destruct (Z.eq_dec k M) as [->|Hne]; [lia|].
    assert (2 ^ n <= Z.abs ((M - k) * 2 ^ n)).
    { rewrite Z.abs_mul, (Z.abs_eq (2 ^ n)) by lia. assert (1 <= Z.abs (M - k)) by lia. nia. }
    replace (x - k * 2 ^ n) with ((x - M * 2 ^ n) + (M - k) * 2 ^ n) by lia. lia. }
  pose proof (Hmult (2 ^ 52)) as H52.
  split; intros Hb.
  - destruct (Z.le_gt_cases n b) as [Hle|Hgt].
    + replace (a * 2 ^ b) with (a * 2 ^ (b - n) * 2 ^ n); [apply Hmult|].
      rewrite <-Z.mul_assoc, <-Z.pow_add_r by lia. do 2 f_equal. lia.
    + (* the other number is at most 2^52 * 2^n *)
      assert (Hpb : 0 < 2 ^ b) by (apply Z.pow_pos_nonneg; lia).
      assert (2 * 2 ^ b <= 2 ^ n).
      { replace (2 * 2 ^ b) with (2 ^ (b + 1)) by (rewrite Z.pow_add_r by lia; lia). apply Z.pow_le_mono_r; lia. }
      assert (a * 2 ^ b <= 2 ^ 53 * 2 ^ b) by nia. lia.
  - assert (Hpb : 1 <= 2 ^ (- b)) by (assert (0 < 2 ^ (- b)) by (apply Z.pow_pos_nonneg; lia); lia).
    assert (Hpn : 2 <= 2 ^ n).
    { replace 2 with (2 ^ 1) at 1 by lia. apply Z.pow_le_mono_r; lia. }
    assert (Z.abs (x - M * 2 ^ n) * 2 ^ (- b) <= (x - 2 ^ 52 * 2 ^ n) * 2 ^ (- b)) by nia.
    assert (a <= 2 ^ 52 * 2 ^ n * 2 ^ (- b)) by nia. nia.
Qed.

Lemma float_nearest z : 2 ^ 53 < Z.abs z < 2 ^ 1022 -> exists y M n,
  f64 (float_of_int z) /\ float_is (float_of_int z) y 0 /\
  y = M * 2 ^ n /\ 2 ^ 52 <= Z.abs M <= 2 ^ 53 /\ 0 < n /\ (2 * Z.abs (z - y) = 2 ^ n -> Z.even M = true) /\
  forall a b, Z.abs a < 2 ^ 53 ->
    (0 <= b -> Z.abs (z - y) <= Z.abs (z - a * 2 ^ b)) /\
    (b < 0 -> Z.abs (z - y) * 2 ^ (- b) <= Z.abs (z * 2 ^ (- b) - a)).
Proof.
  intros Hz. destruct (signed_cases z) as [->|(s & m & -> & Hm)]; [simpl in Hz; lia|].
  rewrite Hm in Hz. pose proof (digits2_pos_bounds m) as Hb.
  assert (Hd1 : 53 < Zpos (digits2_pos m)).
  { destruct (Z.le_gt_cases (Zpos (digits2_pos m)) 53) as [Hle|]; [|done].
    assert (2 ^ Zpos (digits2_pos m) <= 2 ^ 53) by (apply Z.pow_le_mono_r; lia). lia. }
  assert (Hd2 : Zpos (digits2_pos m) <= 1022) by (apply digits_of_bound; lia).
  destruct (round_big s m) as (m' & e' & M & Hr & Hv & He' & HM & HMb & Hn); [lia|].
  set (d := Zpos (digits2_pos m)) in *. assert (Hsg : forall q, Z.abs (signed s q) = Zpos q) by (intros q; by destruct s).
  exists (signed s m' * 2 ^ e'), (if s then - M else M), (d - 53).
  assert (Hy : signed s m' * 2 ^ e' = (if s then - M else M) * 2 ^ (d - 53)) by (destruct s; simpl; lia).
  assert (E1 : 2 ^ (d - 1) = 2 ^ 52 * 2 ^ (d - 53)) by (rewrite <-Z.pow_add_r by lia; f_equal; lia).
  assert (E2 : 2 ^ d = 2 ^ 53 * 2 ^ (d - 53)) by (rewrite <-Z.pow_add_r by lia; f_equal; lia).
  rewrite E1, E2 in Hb.
  assert (Hdist : Z.abs (signed s m - signed s m' * 2 ^ e') = Z.abs (Zpos m - M * 2 ^ (d - 53))).
  { rewrite Hy. destruct s; simpl signed; lia. }
  unfold float_of_int. rewrite normalize_pos, Hr. split_and!; try done.
  - apply dyadic_eq_shift; [lia|]. by rewrite Z.sub_0_r.
  - destruct s; lia.
  - destruct s; lia.
  - lia.
  - rewrite Hdist. intros Ht. destruct Hn as [_ Hn]. apply Hn in Ht. destruct s; [by rewrite Z.even_opp|done].
  - intros a b Ha. rewrite Hdist.
    destruct (nearest_best (Zpos m) (d - 53) M (if s then - a else a) b) as [H1 H2]; [lia|done|done|done|destruct s; lia|].
    split; intros Hbs.
    + specialize (H1 Hbs). destruct s; simpl signed; [|done]. replace (Zneg m - a * 2 ^ b) with (- (Zpos m - - a * 2 ^ b)) by lia.
      by rewrite Z.abs_opp.
    + specialize (H2 Hbs). destruct s; simpl signed; [|done]. replace (Zneg m * 2 ^ (- b) - a) with (- (Zpos m * 2 ^ (- b) - - a)) by lia.
      by rewrite Z.abs_opp.
Qed.
(** float32 to float64. *)
Lemma widen_exact f : valid_binary 24 128 f = true ->
  f64 (widen f) /\
  match f with
  | S754_finite s m e => float_is (widen f) (signed s m) e
  | _ => widen f = f
  end.
Proof.
  destruct f as [s|s| |s m e]; try done. intros Hv. unfold valid_binary, bounded, canonical_mantissa in Hv.
  apply andb_prop in Hv as [H1 H2]. apply Zeq_bool_eq in H1. apply Zle_bool_imp_le in H2. unfold fexp, emin in H1.
  unfold widen. assert (cond_Zopp s (Zpos m) = signed s m) as -> by (by destruct s). rewrite normalize_pos.
  destruct (round_small s m e) as (m' & e' & -> & Hv & He' & Hm'); [lia|lia|].
  split; [done|]. apply dyadic_eq_shift'; [done|]. by apply signed_scale.
Qed.

(** ** Truncation *)
Lemma truncated_unique a e z1 z2 : a <> 0 -> truncated a e z1 -> truncated a e z2 -> z1 = z2.
Proof.
  unfold truncated, dyadic_le, scale. simpl. intros Ha (A1 & B1 & C1) (A2 & B2 & C2).
  set (k := 2 ^ (0 - Z.min 0 e)) in *. set (x := Z.abs a * _) in *.
  assert (Hk : 0 < k) by (apply Z.pow_pos_nonneg; lia).
  assert (Z.abs z1 = Z.abs z2) by nia. destruct (Z.abs_spec z1) as [[? ?]|[? ?]], (Z.abs_spec z2) as [[? ?]|[? ?]]; nia.
Qed.
Lemma trunc_float_spec s m e : exists z, trunc_float (S754_finite s m e) = Some z /\ truncated (signed s m) e z.
Proof.
  unfold trunc_float. eexists. split; [done|]. unfold truncated, dyadic_le, scale. simpl fst. simpl snd.
  assert (Habs : Z.abs (signed s m) = Zpos m) by (by destruct s). rewrite Habs.
  set (a := if bool_decide (0 <= e) then _ else _).
  assert (Ha : 0 <= a).
  { subst a. case_bool_decide; [|apply Z.div_pos; [lia|apply Z.pow_pos_nonneg; lia]].
    assert (0 < 2 ^ e) by (apply Z.pow_pos_nonneg; lia). lia. }
  assert (Hza : Z.abs (if s then - a else a) = a) by (destruct s; lia). rewrite Hza.
  destruct (Z.le_gt_cases 0 e) as [He|He].
  - assert (a = Zpos m * 2 ^ e) as Ea by (subst a; by rewrite bool_decide_eq_true_2). clearbody a. subst a. rewrite Z.min_l by done. rewrite Z.sub_diag, Z.sub_0_r. change (2 ^ 0) with 1.
    assert (0 < 2 ^ e) by (apply Z.pow_pos_nonneg; lia). split_and!; [lia|lia|]. destruct s; simpl; nia.
  - assert (a = Zpos m / 2 ^ (- e)) as Ea by (subst a; rewrite bool_decide_eq_false_2; [done|lia]). clearbody a. subst a.
    rewrite Z.min_r by lia. replace (e - e) with 0 by lia. replace (0 - e) with (- e) by lia. change (2 ^ 0) with 1.
    assert (Hp : 0 < 2 ^ (- e)) by (apply Z.pow_pos_nonneg; lia).
    pose proof (Z.div_mod (Zpos m) (2 ^ (- e)) ltac:(lia)) as Hdm. pose proof (Z.mod_pos_bound (Zpos m) (2 ^ (- e)) Hp) as Hmb.
    split_and!; [nia|nia|]. destruct s; simpl; nia.
Qed.
Lemma int_of_float_trunc F s m e z : truncated (signed s m) e z -> - 2 ^ 63 <= z <= 2 ^ 63 - 1 -> int_of_float F (S754_finite s m e) = z.
Proof.
  intros Ht Hr. destruct (trunc_float_spec s m e) as (z' & Hz' & Ht'). unfold int_of_float. rewrite Hz'.
  assert (z' = z) as -> by (eapply truncated_unique; [|done|done]; by destruct s).
  rewrite bool_decide_eq_true_2; [done|exact Hr].
Qed.
