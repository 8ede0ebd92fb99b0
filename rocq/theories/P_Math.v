(** P_Math.v -- properties C39, C40, C56. *)
From Verif Require Import Base M_Math L_Math.
Ltac Zify.zify_post_hook ::= Z.to_euclidean_division_equations.

(** C39. The result pair (q, r) is characterised by  x = y*q + r  with r between 0 and y, on y's side. *)
Theorem C39_floor_division : forall x y, in_s64 x = true -> in_s64 y = true -> y <> 0 ->
  ~ (x = -9223372036854775808 /\ y = -1) ->
  exists q r, divFloor x y = Val q /\ modFloor x y = Val r /\ x = y * q + r /\
    (0 < y -> 0 <= r < y) /\ (y < 0 -> y < r <= 0).
Proof.
  intros x y Hx Hy H0 Hm. exists (x / y), (x mod y).
  rewrite divFloor_spec, modFloor_spec by (auto; split; auto).
  split; [reflexivity|]. split; [reflexivity|]. split; [apply Z.div_mod; exact H0|].
  split; intros; [apply Z.mod_pos_bound|apply Z.mod_neg_bound]; lia.
Qed.
Print Assumptions C39_floor_division.

(** the two excluded cases are undefined behaviour, except that modFloor by zero gives zero *)
Theorem C39_excluded_cases : (forall x, divFloor x 0 = UB) /\ (forall x, modFloor x 0 = Val 0) /\
  divFloor (-9223372036854775808) (-1) = UB /\ modFloor (-9223372036854775808) (-1) = UB.
Proof. repeat split. Qed.
Print Assumptions C39_excluded_cases.
Example C39_example : divFloor (-7) 2 = Val (-4) /\ modFloor (-7) 2 = Val 1
  /\ divFloor 7 (-2) = Val (-4) /\ modFloor 7 (-2) = Val (-1).
Proof. repeat split. Qed.

(** C40 *)
Theorem C40_powerOf2 : forall x, powerOf2 x = true <-> exists k, 0 <= k /\ x = 2 ^ k.
Proof. exact powerOf2_spec. Qed.
Print Assumptions C40_powerOf2.

Theorem C40_ceilPowerOf2 : forall x, 1 <= x <= 2147483648 ->
  (exists k, 0 <= k /\ ceilPowerOf2 x = 2 ^ k) /\ x <= ceilPowerOf2 x /\
  (forall k, 0 <= k -> x <= 2 ^ k -> ceilPowerOf2 x <= 2 ^ k).
Proof. exact ceilPowerOf2_least. Qed.
Print Assumptions C40_ceilPowerOf2.

Theorem C40_ceilPowerOf2_zero : forall x, 2147483648 < x < 4294967296 \/ x = 0 -> ceilPowerOf2 x = 0.
Proof. exact ceilPowerOf2_big. Qed.
Print Assumptions C40_ceilPowerOf2_zero.

Theorem C40_swap_distinct : forall m a b, a <> b -> forall x,
  xorSwap m a b x = if x =? a then m b else if x =? b then m a else m x.
Proof. exact xorSwap_distinct. Qed.
Print Assumptions C40_swap_distinct.

Theorem C40_swap_with_itself_refuted : forall m a x, xorSwap m a a x = if x =? a then 0 else m x.
Proof. exact xorSwap_same. Qed.
Print Assumptions C40_swap_with_itself_refuted.
Example C40_example : powerOf2 64 = true /\ powerOf2 96 = false /\ ceilPowerOf2 65 = 128
  /\ ceilPowerOf2 2147483648 = 2147483648 /\ ceilPowerOf2 2147483649 = 0.
Proof. repeat split. Qed.

(** C56: random(lower, upper) stays inside the closed interval whatever rand() returns *)
Theorem C56_random_in_range : forall rnd lower upper, 0 <= rnd <= 2147483647 ->
  -2147483648 <= lower <= upper -> upper < 2147483647 -> upper - lower < 2147483647 ->
  exists v, randomInt rnd lower upper = Val v /\ lower <= v <= upper.
Proof.
  intros rnd lo up Hr Hl Hu Hd. unfold randomInt, chk32, in_s32.
  destruct ((-2147483648 <=? up + 1) && (up + 1 <=? 2147483647)) eqn:E1; [|lia]. cbn [bind].
  destruct ((-2147483648 <=? up + 1 - lo) && (up + 1 - lo <=? 2147483647)) eqn:E2; [|lia]. cbn [bind].
  destruct (up + 1 - lo =? 0) eqn:E3; [lia|].
  pose proof (Z.rem_bound_pos rnd (up + 1 - lo) ltac:(lia) ltac:(lia)) as H.
  set (r := Z.rem rnd (up + 1 - lo)) in *. clearbody r.
  destruct ((-2147483648 <=? r + lo) && (r + lo <=? 2147483647)) eqn:E4; [|lia].
  exists (r + lo). split; [reflexivity|lia].
Qed.
Print Assumptions C56_random_in_range.
Theorem C56_random_whole_range_refuted : forall rnd lower, randomInt rnd lower 2147483647 = UB.
Proof. reflexivity. Qed.
Print Assumptions C56_random_whole_range_refuted.
Example C56_example : randomInt 2147483647 (-3) 3 = Val (-2). Proof. reflexivity. Qed.
