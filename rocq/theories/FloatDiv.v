(* math.ceil(extent / factor), sched.py:74: Python's int / int is the quotient correctly rounded to 53
   significant bits (ties to even).  Exponent overflow (quotients above 2^1023) is not modelled. *)
From Verif Require Import Base Util Lang Spec Graph Algo Kernel Sched NestSched.

Definition round_even (n d : Z) : Z :=
  let q := n / d in let r := n mod d in
  if 2 * r <? d then q else if d <? 2 * r then q + 1 else if Z.even q then q else q + 1.
Definition fl_scale (a b : Z) : Z :=
  let k := 53 - Z.log2 a + Z.log2 b in
  if a * 2 ^ Z.max k 0 <? 2 ^ 53 * b * 2 ^ Z.max (- k) 0 then k else k - 1.
(* mantissa and scale: the float a / b is mantissa / 2^scale *)
Definition fl_mant (a b : Z) : Z := let k := fl_scale a b in round_even (a * 2 ^ Z.max k 0) (b * 2 ^ Z.max (- k) 0).
Definition fl_ceil_div (a b : Z) : Z :=
  if a =? 0 then 0 else let k := fl_scale a b in if 0 <=? k then ceildiv (fl_mant a b) (2 ^ k) else fl_mant a b * 2 ^ (- k).

Lemma round_even_le n d c : 0 < d -> n <= c * d -> round_even n d <= c.
Proof.
  intros Hd H. unfold round_even. pose proof (Z.div_mod n d ltac:(lia)). pose proof (Z.mod_pos_bound n d Hd).
  assert (n / d < c \/ n / d = c /\ n mod d = 0) by nia.
  destruct (2 * (n mod d) <? d) eqn:E1; [lia|]. destruct (d <? 2 * (n mod d)) eqn:E2; [lia|]. destruct (Z.even (n / d)); lia.
Qed.
Lemma round_even_gt n d c : 0 < d -> (2 * c + 1) * d < 2 * n -> c < round_even n d.
Proof.
  intros Hd H. unfold round_even. pose proof (Z.div_mod n d ltac:(lia)). pose proof (Z.mod_pos_bound n d Hd).
  assert (c < n / d \/ n / d = c /\ d < 2 * (n mod d)) by nia.
  destruct (2 * (n mod d) <? d) eqn:E1; [lia|]. destruct (d <? 2 * (n mod d)) eqn:E2; [lia|]. destruct (Z.even (n / d)); lia.
Qed.
Lemma fl_scale_spec a b : 0 < a < 2 ^ 53 -> 0 < b -> 0 <= fl_scale a b /\ 2 ^ 52 * b <= a * 2 ^ fl_scale a b.
Proof.
  intros Ha Hb. pose proof (Z.log2_spec a ltac:(lia)) as [A1 A2]. pose proof (Z.log2_spec b Hb) as [B1 B2].
  assert (Hla : Z.log2 a <= 52) by (assert (Z.log2 a < 53) by (apply Z.log2_lt_pow2; lia); lia).
  pose proof (Z.log2_nonneg a). pose proof (Z.log2_nonneg b). unfold fl_scale. set (k := 53 - Z.log2 a + Z.log2 b).
  assert (Hk : 1 <= k) by lia. rewrite (Z.max_l k 0), (Z.max_r (- k) 0), Z.mul_1_r by lia.
  assert (HX : 2 ^ 52 * b <= a * 2 ^ k).
  { assert (E : 2 ^ Z.log2 a * 2 ^ k = 2 ^ 52 * 2 ^ Z.succ (Z.log2 b)) by (rewrite <- !Z.pow_add_r by lia; f_equal; lia).
    assert (0 < 2 ^ k) by (apply Z.pow_pos_nonneg; lia). nia. }
  destruct (a * 2 ^ k <? 2 ^ 53 * b) eqn:E; [split; [lia|exact HX]|]. split; [lia|].
  assert (2 ^ k = 2 * 2 ^ (k - 1)) by (rewrite <- Z.pow_succ_r by lia; f_equal; lia). nia.
Qed.
(* below 2^53 the rounding never shows *)
Theorem fl_ceil_div_exact a b : 0 <= a < 2 ^ 53 -> 0 < b -> fl_ceil_div a b = ceildiv a b.
Proof.
  intros Ha Hb. unfold fl_ceil_div. destruct (Z.eqb_spec a 0) as [->|Hn]; [unfold ceildiv; reflexivity|].
  destruct (fl_scale_spec a b ltac:(lia) Hb) as [Hk HX]. unfold fl_mant. set (k := fl_scale a b) in *.
  rewrite (proj2 (Z.leb_le 0 k) Hk). rewrite (Z.max_l k 0), (Z.max_r (- k) 0), Z.mul_1_r by lia.
  pose proof (ceildiv_bounds a b Hb) as HC. set (c := ceildiv a b) in *. assert (HP : 0 < 2 ^ k) by (apply Z.pow_pos_nonneg; lia).
  assert (Hbig : b < 2 * 2 ^ k) by nia.
  assert (H1 : round_even (a * 2 ^ k) b <= c * 2 ^ k) by (apply round_even_le; [lia|nia]).
  assert (H2 : (c - 1) * 2 ^ k < round_even (a * 2 ^ k) b).
  { apply round_even_gt; [lia|]. assert ((c - 1) * b + 1 <= a) by lia. assert (((c - 1) * b + 1) * 2 ^ k <= a * 2 ^ k) by (apply Z.mul_le_mono_nonneg_r; lia). nia. }
  pose proof (ceildiv_bounds (round_even (a * 2 ^ k) b) (2 ^ k) HP). nia.
Qed.
Example fl_ceil_div_big : fl_ceil_div (2 ^ 53 + 1) 1 = 2 ^ 53 /\ ceildiv (2 ^ 53 + 1) 1 = 2 ^ 53 + 1.
Proof. split; vm_compute; reflexivity. Qed.
Example fl_ceil_div_vals : map (fun p => fl_ceil_div (fst p) (snd p)) [(1, 3); (7, 2); (2 ^ 53 - 1, 3); (2 ^ 53 - 1, 256); (10, 5); (2 ^ 60, 7)] =
  [1; 4; 3002399751580331; 35184372088832; 2; 164703072086692416].
Proof. vm_compute. reflexivity. Qed.
