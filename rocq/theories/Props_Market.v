(** C226-C230: more in, more out; trading ahead of somebody; what a deposit is worth. *)
From Coq Require Import ZArith List Bool Lia.
From Coq Require Import ZifyBool.
From Verif Require Import Base FMap Decimal DecimalProofs Curve World Token TokenProofs Frame Stake Pool PoolProofs
  Stable StableProofs Rewards Vest Factory Router System SysFrame SysInv SysPool SysStable SysSupply Script
  Props_Token Props_Pool Props_PoolCases Props_Stable Props_StableCases Props_Live Props_LiveTok Props_Calls Props_Effects Props_Effects2.
Import ListNotations.
Open Scope Z_scope.

(** ** Arithmetic *)
(** the gross amounts of two swaps, from the bounds of C11 *)
Lemma gross_le x y a g x' y' a' g' : 0 < x + a -> 0 < x' + a' ->
  (x + a) * (y - g) <= x * y -> x' * y' - (x' + a') < (x' + a') * (y' - g') ->
  y' * a' * (x + a) <= y * a * (x' + a') -> g' <= g.
Proof.
  intros Px Px' U L R. destruct (Z.le_gt_cases g' g) as [|N]; [assumption|exfalso].
  assert (A1 : y * a <= (x + a) * g) by lia.
  assert (A2 : (x' + a') * (g' - 1) < y' * a') by lia.
  assert (A3 : (x' + a') * g <= (x' + a') * (g' - 1)) by (apply Z.mul_le_mono_nonneg_l; lia).
  assert (A4 : (x + a) * ((x' + a') * g) < (x + a) * (y' * a')) by (apply Z.mul_lt_mono_pos_l; lia).
  assert (A5 : (x' + a') * (y * a) <= (x' + a') * ((x + a) * g)) by (apply Z.mul_le_mono_nonneg_l; lia).
  lia.
Qed.
Lemma net_le f g g' : 0 <= f <= 10000 -> g' <= g -> g' - g' * f / 10000 <= g - g * f / 10000.
Proof.
  intros Hf L. assert (g * f / 10000 <= g' * f / 10000 + (g - g')); [|lia].
  rewrite <- Z.div_add by lia. apply Z.div_le_mono; [lia|].
  assert ((g - g') * f <= (g - g') * 10000) by (apply Z.mul_le_mono_nonneg_l; lia). lia.
Qed.
Lemma side_flip p offer x y buy : p_ta p <> p_tb p -> side p offer x y buy -> side p buy y x offer.
Proof. unfold side. intros N [[-> [-> [-> ->]]]|[-> [M [-> [-> ->]]]]]; [right|left]; auto. Qed.

Lemma side_fun p offer x y buy x' y' buy' : side p offer x y buy -> side p offer x' y' buy' -> x = x' /\ y = y' /\ buy = buy'.
Proof. unfold side. intros A B. intuition congruence. Qed.

(** ** C226: more in, more out.  Two swaps in ledgers with the same pool record. *)
Theorem C226_more_in_more_out H w1 e1 c1 u1 a1 mi1 ms1 dl1 mf1 r1 w1' w2 e2 c2 u2 a2 mi2 ms2 dl2 mf2 r2 w2' self offer :
  reachable H w1 -> u1 <> self -> u2 <> self -> fget self (w_pool w2) = fget self (w_pool w1) ->
  pool_swap e1 c1 self u1 offer a1 mi1 ms1 dl1 mf1 w1 = Ok (r1, w1') ->
  pool_swap e2 c2 self u2 offer a2 mi2 ms2 dl2 mf2 w2 = Ok (r2, w2') ->
  a1 <= a2 -> r1 <= r2.
Proof.
  intros R N1 N2 Es X1 X2 L.
  destruct (swap_facts _ _ _ _ _ _ _ _ _ _ _ _ _ N1 X1) as [p [p1 [x [y [g1 [f1 [s1 [b1 F1]]]]]]]].
  destruct (swap_facts _ _ _ _ _ _ _ _ _ _ _ _ _ N2 X2) as [q [p2 [x2 [y2 [g2 [f2 [s2 [b2 F2]]]]]]]].
  pose proof (sf_before F1) as B1. pose proof (sf_before F2) as B2. unfold pool_at in *. rewrite Es, B1 in B2. injection B2 as B2. subst q.
  destruct (side_fun _ _ _ _ _ _ _ _ (sf_side F1) (sf_side F2)) as [-> [-> ->]].
  pose proof (sf_pos F1) as P1. pose proof (sf_pos F2) as P2. pose proof (sf_product F1) as D1. pose proof (sf_product F2) as D2.
  destruct (C22_settings_valid _ _ _ _ R B1) as [Fr _].
  assert (G : g1 <= g2).
  { eapply (gross_le x2 y2 a2 g2 x2 y2 a1 g1); try lia.
    assert (y2 * x2 * a1 <= y2 * x2 * a2) by (apply Z.mul_le_mono_nonneg_l; [apply Z.mul_nonneg_nonneg|]; lia). lia. }
  pose proof (net_le _ _ _ Fr G) as Q. pose proof (sf_gross F1). pose proof (sf_gross F2). pose proof (sf_fee F1). pose proof (sf_fee F2). lia.
Qed.
Print Assumptions C226_more_in_more_out.

(** ** C227: a swap that goes first in the same direction never improves the price, one in the opposite direction never worsens it *)
Lemma worse_reserves H w1 e1 c1 u1 a mi1 ms1 dl1 mf1 r1 w1' w2 e2 c2 u2 mi2 ms2 dl2 mf2 r2 w2' self offer p p' x y x' y' buy buy' :
  reachable H w1 -> u1 <> self -> u2 <> self -> pool_at w1 self p -> pool_at w2 self p' -> p_fee p' = p_fee p ->
  side p offer x y buy -> side p' offer x' y' buy' -> x <= x' -> y' <= y ->
  pool_swap e1 c1 self u1 offer a mi1 ms1 dl1 mf1 w1 = Ok (r1, w1') ->
  pool_swap e2 c2 self u2 offer a mi2 ms2 dl2 mf2 w2 = Ok (r2, w2') -> r2 <= r1.
Proof.
  intros R N1 N2 Hp Hp' Ef Sd Sd' Lx Ly X1 X2.
  destruct (swap_facts _ _ _ _ _ _ _ _ _ _ _ _ _ N1 X1) as [q1 [p1 [x1 [y1 [g1 [f1 [s1 [b1 F1]]]]]]]].
  destruct (swap_facts _ _ _ _ _ _ _ _ _ _ _ _ _ N2 X2) as [q2 [p2 [x2 [y2 [g2 [f2 [s2 [b2 F2]]]]]]]].
  pose proof (sf_before F1) as B1. pose proof (sf_before F2) as B2. unfold pool_at in *.
  rewrite Hp in B1. injection B1 as B1. subst q1. rewrite Hp' in B2. injection B2 as B2. subst q2.
  destruct (side_fun _ _ _ _ _ _ _ _ Sd (sf_side F1)) as [E1 [E2 _]]. destruct (side_fun _ _ _ _ _ _ _ _ Sd' (sf_side F2)) as [E3 [E4 _]]. subst x1 y1 x2 y2.
  pose proof (sf_pos F1) as P1. pose proof (sf_pos F2) as P2. pose proof (sf_product F1) as D1. pose proof (sf_product F2) as D2.
  destruct (C22_settings_valid _ _ _ _ R Hp) as [Fr _].
  assert (G : g2 <= g1).
  { eapply (gross_le x y a g1 x' y' a g2); try lia.
    assert (y' * a * (x + a) <= y * a * (x + a)) by (apply Z.mul_le_mono_nonneg_r; [lia|]; apply Z.mul_le_mono_nonneg_r; lia).
    assert (y * a * (x + a) <= y * a * (x' + a)) by (apply Z.mul_le_mono_nonneg_l; [apply Z.mul_nonneg_nonneg; lia|lia]). lia. }
  pose proof (net_le _ _ _ Fr G) as Q. pose proof (sf_gross F1). pose proof (sf_gross F2). pose proof (sf_fee F1). pose proof (sf_fee F2).
  rewrite Ef in *. lia.
Qed.

Theorem C227_going_second H w e0 c0 u0 offer0 a0 mi0 ms0 dl0 mf0 r0 w0 w2 self e1 c1 u1 offer a mi1 ms1 dl1 mf1 r1 w1 e2 c2 u2 mi2 ms2 dl2 mf2 r2 w3 :
  reachable H w -> u0 <> self -> u1 <> self -> u2 <> self ->
  (* somebody trades first; nothing else happens to the pool *)
  pool_swap e0 c0 self u0 offer0 a0 mi0 ms0 dl0 mf0 w = Ok (r0, w0) -> fget self (w_pool w2) = fget self (w_pool w0) ->
  (* the swap without and with the trade before it *)
  pool_swap e1 c1 self u1 offer a mi1 ms1 dl1 mf1 w = Ok (r1, w1) ->
  pool_swap e2 c2 self u2 offer a mi2 ms2 dl2 mf2 w2 = Ok (r2, w3) ->
  (offer0 = offer -> r2 <= r1) /\ (offer0 <> offer -> r1 <= r2).
Proof.
  intros R N0 N1 N2 X0 Es X1 X2.
  destruct (swap_facts _ _ _ _ _ _ _ _ _ _ _ _ _ N0 X0) as [p [p0 [x [y [g [f [s [b F]]]]]]]].
  pose proof (sf_before F) as B. pose proof (sf_after F) as A. pose proof (sf_side F) as S0. pose proof (sf_side' F) as S1. pose proof (sf_pos F) as P0.
  assert (Ef : p_fee p0 = p_fee p) by (rewrite (sf_same F); reflexivity).
  assert (A2 : pool_at w2 self p0) by (unfold pool_at in *; congruence).
  pose proof (pi_ord _ _ _ (reach_pool _ _ R _ _ B)) as Od.
  split.
  - intros ->. eapply (worse_reserves H w); [exact R|exact N1|exact N2|exact B|exact A2|exact Ef|exact S0|exact S1|lia|lia|exact X1|exact X2].
  - intros No.
    destruct (swap_facts _ _ _ _ _ _ _ _ _ _ _ _ _ N1 X1) as [q1 [q1' [x1 [y1 [g1 [f1 [s1 [b1 F1]]]]]]]].
    pose proof (sf_before F1) as B1. assert (q1 = p) by (unfold pool_at in *; congruence). subst q1.
    assert (Eo : offer = b).
    { pose proof (sf_side F1) as Q. clear - No S0 Q. unfold side in *.
      destruct S0 as [[? [? _]]|[? [? [? _]]]], Q as [[? _]|[? _]]; congruence. }
    subst offer.
    assert (T0 : p_ta p0 <> p_tb p0) by (rewrite (sf_same F); cbn; lia).
    assert (T00 : p_ta p <> p_tb p) by lia. pose proof (side_flip _ _ _ _ _ T00 S0) as S0'. pose proof (side_flip _ _ _ _ _ T0 S1) as S1'.
    assert (Fr : 0 <= p_fee p <= 10000) by (apply (C22_settings_valid _ _ _ _ R B)).
    destruct (swap_facts _ _ _ _ _ _ _ _ _ _ _ _ _ N2 X2) as [q2 [q2' [x2 [y2 [g2 [f2 [s2 [b2 F2]]]]]]]].
    pose proof (sf_before F2) as B2. assert (q2 = p0) by (unfold pool_at in *; congruence). subst q2.
    destruct (side_fun _ _ _ _ _ _ _ _ S0' (sf_side F1)) as [E1 [E2 _]]. destruct (side_fun _ _ _ _ _ _ _ _ S1' (sf_side F2)) as [E3 [E4 _]]. subst x1 y1 x2 y2.
    pose proof (sf_pos F1) as P1. pose proof (sf_pos F2) as P2. pose proof (sf_product F1) as D1. pose proof (sf_product F2) as D2.
    assert (G : g1 <= g2).
    { eapply (gross_le (y - g) (x + a0) a g2 y x a g1); lia. }
    pose proof (net_le _ _ _ Fr G) as Q. pose proof (sf_gross F1). pose proof (sf_gross F2). pose proof (sf_fee F1). pose proof (sf_fee F2).
    rewrite Ef in *. lia.
Qed.
Print Assumptions C227_going_second.

(** ** C228: who trades before and after somebody else gains at most what that one overpaid.
    [x * gv / (y - gv)] is what the pool would have charged for [gv] before the first trade. *)
Theorem C228_sandwich_bounded H w self p offer buy x y
    e1 c1 u1 d mi1 ms1 dl1 mf1 r1 w1 w1' e2 c2 u2 a mi2 ms2 dl2 mf2 r2 w2 w2' e3 c3 u3 mi3 ms3 dl3 mf3 r3 w3 :
  reachable H w -> u1 <> self -> u2 <> self -> u3 <> self -> pool_at w self p -> side p offer x y buy ->
  pool_swap e1 c1 self u1 offer d mi1 ms1 dl1 mf1 w = Ok (r1, w1) -> fget self (w_pool w1') = fget self (w_pool w1) ->
  pool_swap e2 c2 self u2 offer a mi2 ms2 dl2 mf2 w1' = Ok (r2, w2) -> fget self (w_pool w2') = fget self (w_pool w2) ->
  pool_swap e3 c3 self u3 buy r1 mi3 ms3 dl3 mf3 w2' = Ok (r3, w3) ->
  exists gv p1 p2 z, pool_at w1 self p1 /\ pool_at w2 self p2 /\
    (* gv is what the victim's swap took from the pool *)
    side p1 offer (x + d) z buy /\ side p2 offer (x + d + a) (z - gv) buy /\ r2 <= gv <= z /\ 0 < y - gv /\
    (r3 - d) * (y - gv) < (a + 1) * (y - gv) - x * gv + 2 * (x + d) + a.
Proof.
  intros R N1 N2 N3 Hp Sd X1 E1 X2 E2 X3.
  destruct (swap_facts _ _ _ _ _ _ _ _ _ _ _ _ _ N1 X1) as [q [p1 [x1 [y1 [g1 [f1 [s1 [b1 F1]]]]]]]].
  pose proof (sf_before F1) as B. assert (q = p) by (unfold pool_at in *; congruence). subst q.
  destruct (side_fun _ _ _ _ _ _ _ _ Sd (sf_side F1)) as [<- [<- <-]].
  pose proof (sf_side' F1) as S1. pose proof (sf_after F1) as A1.
  destruct (swap_facts _ _ _ _ _ _ _ _ _ _ _ _ _ N2 X2) as [q [p2 [x2 [y2 [g2 [f2 [s2 [b2 F2]]]]]]]].
  pose proof (sf_before F2) as B2. assert (q = p1) by (unfold pool_at in *; congruence). subst q.
  destruct (side_fun _ _ _ _ _ _ _ _ S1 (sf_side F2)) as [<- [<- <-]].
  pose proof (sf_side' F2) as S2. pose proof (sf_after F2) as A2.
  destruct (swap_facts _ _ _ _ _ _ _ _ _ _ _ _ _ N3 X3) as [q [p3 [x3 [y3 [g3 [f3 [s3 [b3 F3]]]]]]]].
  pose proof (sf_before F3) as B3. assert (q = p2) by (unfold pool_at in *; congruence). subst q.
  pose proof (pi_ord _ _ _ (reach_pool _ _ R _ _ Hp)) as Od.
  assert (T2 : p_ta p2 <> p_tb p2) by (rewrite (sf_same F2); cbn; rewrite (sf_same F1); cbn; lia).
  destruct (side_fun _ _ _ _ _ _ _ _ (side_flip _ _ _ _ _ T2 S2) (sf_side F3)) as [<- [<- _]].
  pose proof (sf_pos F1) as P1. pose proof (sf_pos F2) as P2. pose proof (sf_pos F3) as P3.
  pose proof (sf_product F1) as D1. pose proof (sf_product F2) as D2. pose proof (sf_product F3) as D3.
  pose proof (sf_gross F1) as Q1. pose proof (sf_gross F2) as Q2. pose proof (sf_gross F3) as Q3.
  exists g2, p1, p2, (y - g1). split; [exact A1|]. split; [exact A2|]. split; [exact S1|]. split; [exact S2|].
  split; [lia|]. split; [lia|].
  (* x3 = what is left of the offered token *)
  set (L := x + d + a - g3) in *.
  assert (K0 : (L + 1) * (y - g2) >= (L + 1) * (y - g1 - g2 + r1)).
  { apply Z.le_ge. apply Z.mul_le_mono_nonneg_l; [|lia].
    assert (0 <= L); [|lia]. destruct (Z.le_gt_cases 0 L); [lia|]. unfold L in *. lia. }
  assert (K1 : (y - g1 - g2) * (x + d + a) < (L + 1) * (y - g1 - g2 + r1)) by (unfold L in *; lia).
  assert (K2 : x * y - (x + d) - (x + d + a) < (x + d + a) * (y - g1 - g2)) by lia.
  assert (K3 : x * y - (x + d) - (x + d + a) < (L + 1) * (y - g2)) by lia.
  assert (K4 : (r3 - d) * (y - g2) <= (g3 - d) * (y - g2)) by (apply Z.mul_le_mono_nonneg_r; lia).
  unfold L in *. lia.
Qed.
Print Assumptions C228_sandwich_bounded.

(** ** C229: the shares of a deposit are worth what it cost, up to one share and one unit of the other token *)
Theorem C229_deposit_is_worth_its_cost H w e self p u da mina db minb custom dl w' :
  reachable H w -> pool_at w self p -> 0 < p_ra p -> 0 < p_rb p -> pool_provide e None self u da mina db minb custom dl w = Ok (tt, w') ->
  exists p', pool_at w' self p' /\ 1000 <= p_total p' /\
    let minted := p_total p' - p_total p in
    let a := bal w (p_ta p) u - bal w' (p_ta p) u in
    let b := bal w (p_tb p) u - bal w' (p_tb p) u in
    bal w' (p_share p) u = bal w (p_share p) u + minted /\
    a * p_total p' * p_rb p < minted * p_ra p' * p_rb p + p_ra p * p_rb p + p_total p' * p_ra p /\
    b * p_total p' * p_ra p < minted * p_rb p' * p_ra p + p_rb p * p_ra p + p_total p' * p_rb p.
Proof.
  intros R Hp Pa Pb X. pose proof (reach_good _ _ R) as G. pose proof (gd_cpool _ G _ _ Hp) as Hc. pose proof (gd_pos _ G _ _ Hc) as Ps.
  pose proof (reach_pool _ _ R _ _ Hp) as I. pose proof (pi_ord _ _ _ I) as Od. pose proof (pi_sa _ _ _ I) as Sa. pose proof (pi_sb _ _ _ I) as Sb.
  pose proof (pi_ra _ _ _ I) as Ra. pose proof (pi_rb _ _ _ I) as Rb.
  destruct (C10_deposit_no_dilution H w e None self u da mina db minb custom dl w' p) as [p1 [Hp1 [T0 [T1 _]]]]; auto; try discriminate.
  assert (Nt : p_total p <> 0) by lia.
  assert (Ns : u <> self).
  { pose proof X as Y. apply pool_provide_ok in Y. destruct Y as [_ [A _]].
    eapply (sender_not_self H w e None self); [exact R|exact Hc|discriminate|exact A]. }
  destruct (C153_deposit_effect _ _ _ _ _ _ _ _ _ _ _ _ _ R Hp X) as [xa [xb [a [b [n [lk [_ [_ [_ [En [Hp' [Bl _]]]]]]]]]]]].
  destruct (En Nt) as [Ea [Eb [-> Enn]]]. clear En.
  assert (p1 = mkPool (p_ta p) (p_tb p) (p_share p) (p_stake p) (p_fee p) (p_feerec p) (p_maxslip p) (p_maxspread p)
    (p_maxref p) (p_defslip p) (p_admin p) n (bal w (p_ta p) self + a) (bal w (p_tb p) self + b)) by (unfold pool_at in *; congruence).
  subst p1. cbn [p_total p_ra p_rb] in T1.
  eexists. split; [exact Hp'|]. cbn [p_total p_ra p_rb]. split; [destruct (pi_min _ _ _ I); lia|]. cbv zeta.
  assert (Da : bal w (p_ta p) u - bal w' (p_ta p) u = a).
  { rewrite Bl. unfold on. rewrite !Z.eqb_refl. destruct (Z.eqb_spec (p_ta p) (p_share p)); [congruence|].
    destruct (Z.eqb_spec (p_ta p) (p_tb p)); [lia|]. destruct (Z.eqb_spec u self); [congruence|]. cbn [andb]. lia. }
  assert (Db : bal w (p_tb p) u - bal w' (p_tb p) u = b).
  { rewrite Bl. unfold on. rewrite !Z.eqb_refl. destruct (Z.eqb_spec (p_tb p) (p_share p)); [congruence|].
    destruct (Z.eqb_spec (p_tb p) (p_ta p)); [lia|]. destruct (Z.eqb_spec u self); [congruence|]. cbn [andb]. lia. }
  rewrite Da, Db. split.
  { rewrite Bl. unfold on. rewrite !Z.eqb_refl. destruct (Z.eqb_spec (p_share p) (p_ta p)); [congruence|].
    destruct (Z.eqb_spec (p_share p) (p_tb p)); [congruence|]. destruct (Z.eqb_spec u self); [congruence|]. cbn [andb]. lia. }
  (* the amounts are in proportion, up to one unit *)
  assert (Rab : a * p_rb p <= (b + 1) * p_ra p).
  { pose proof (Z.mul_div_le (xb * p_ra p) (p_rb p) Pb). pose proof (Z.mul_succ_div_gt (xa * p_rb p) (p_ra p) Pa). nia. }
  assert (Rba : b * p_ra p <= (a + 1) * p_rb p).
  { pose proof (Z.mul_div_le (xa * p_rb p) (p_ra p) Pa). pose proof (Z.mul_succ_div_gt (xb * p_ra p) (p_rb p) Pb). nia. }
  clear Ea Eb Da Db.
  assert (Ba : p_ra p <= bal w (p_ta p) self) by lia. assert (Bb : p_rb p <= bal w (p_tb p) self) by lia.
  revert Enn Ba Bb T0 T1 Pa Pb Rab Rba. clear.
  generalize (bal w (p_ta p) self) (bal w (p_tb p) self) (p_total p) (p_ra p) (p_rb p). intros A B T x y En Ba Bb T0 T1 Px Py Rab Rba.
  pose proof (Z.mul_succ_div_gt ((A + a) * T) x Px) as U1. pose proof (Z.mul_succ_div_gt ((B + b) * T) y Py) as U2.
  assert (K : forall A B a b x y, x <= A -> y <= B -> 0 < x -> 0 < y -> 0 <= T <= n -> a * y <= (b + 1) * x ->
     (T * (A + a) < (n + 1) * x \/ T * (B + b) < (n + 1) * y) ->
     a * n * y < (n - T) * (A + a) * y + x * y + n * x).
  { clear. intros A B a b x y Ba Bb Px Py Ht Rab C. assert (E : (n - T) * (A + a) * y = n * A * y + a * n * y - T * (A + a) * y) by ring. rewrite E.
    cut (T * (A + a) * y < n * A * y + x * y + n * x); [lia|].
    destruct C as [C|C].
    - assert (T * (A + a) * y < (n + 1) * x * y) by (apply Z.mul_lt_mono_pos_r; lia).
      assert (n * x * y <= n * A * y) by (apply Z.mul_le_mono_nonneg_r; [lia|]; apply Z.mul_le_mono_nonneg_l; lia).
      assert (0 <= n * x) by (apply Z.mul_nonneg_nonneg; lia). lia.
    - assert (E2 : T * (A + a) * y = T * (A - x) * y + T * (x * y) + T * (a * y)) by ring. rewrite E2.
      assert (K1 : T * (a * y) <= T * ((b + 1) * x)) by (apply Z.mul_le_mono_nonneg_l; lia).
      assert (K2 : T * (A - x) * y <= n * (A - x) * y) by (apply Z.mul_le_mono_nonneg_r; [lia|]; apply Z.mul_le_mono_nonneg_r; lia).
      assert (K3 : T * (B + b) * x < (n + 1) * y * x) by (apply Z.mul_lt_mono_pos_r; lia).
      assert (K4 : T * y * x <= T * B * x) by (apply Z.mul_le_mono_nonneg_r; [lia|]; apply Z.mul_le_mono_nonneg_l; lia).
      assert (K5 : T * x <= n * x) by (apply Z.mul_le_mono_nonneg_r; lia).
      lia. }
  assert (Cc : T * (A + a) < (n + 1) * x \/ T * (B + b) < (n + 1) * y) by nia.
  split.
  - apply (K A B a b x y); auto; lia.
  - apply (K B A b a y x); auto; try lia.
Qed.
Print Assumptions C229_deposit_is_worth_its_cost.

(** ** C230: the empty stable pool's first depositor takes from the second (C78 to the end) *)
(** They deposit 501 of each token, send 5 * 10^7 of each to the pool and deposit one unit more. The
    next depositor's 2 * 10^7 of each token buy no share; the two shares then withdraw everything. *)
Theorem C230_depositors_keep_their_share_refuted : exists w w1 w2 p,
  reachable xH w /\ stable_at w 20 p /\ bal w (l_share p) (-2) = 2 /\ l_total p = 2 /\
  (* all that the attacker put in *)
  10^15 - bal w 1 (-2) = 50000502 /\ 10^15 - bal w 2 (-2) = 50000502 /\
  stable_provide (env_of [-4]) None 20 (-4) (2 * 10^7) (2 * 10^7) None None None w = Ok (tt, w1) /\
  stable_withdraw (env_of [-2]) None 20 (-2) 2 1 1 None w1 = Ok ((70000502, 70000502), w2) /\
  bal w2 1 (-2) = 10^15 + 2 * 10^7 /\ bal w2 2 (-2) = 10^15 + 2 * 10^7 /\
  bal w2 1 (-4) = bal w 1 (-4) - 2 * 10^7 /\ bal w2 2 (-4) = bal w 2 (-4) - 2 * 10^7 /\ bal w2 (l_share p) (-4) = 0 /\
  supply w2 (l_share p) = 0 /\ bal w2 1 20 = 0 /\ bal w2 2 20 = 0.
Proof.
  pose (w1 := after (stable_provide (env_of [-4]) None 20 (-4) (2 * 10^7) (2 * 10^7) None None None yInfl)).
  exists yInfl, w1, (after (stable_withdraw (env_of [-2]) None 20 (-2) 2 1 1 None w1)), (yP 2 50000502 50000502).
  split; [apply world_reach; vm_compute; reflexivity|].
  do 14 (split; [vm_compute; reflexivity|]). vm_compute; reflexivity.
Qed.
Print Assumptions C230_depositors_keep_their_share_refuted.

(** ** Cases: reserves 1000000 and 2000000, fee 30 bps *)
Definition mk1 : World := after (pool_swap (env_of [-2]) None 10 (-2) 1 50000 None None None None xW).
Definition mk2 : World := after (pool_swap (env_of [-4]) None 10 (-4) 1 50000 None None None None mk1).
Example C226_example :
  (exists w', pool_swap (env_of [-4]) None 10 (-4) 1 1000 None None None None xW = Ok (1994, w')) /\
  (exists w', pool_swap (env_of [-2]) None 10 (-2) 1 50000 None None None None xW = Ok (94954, w')).
Proof. split; eexists; vm_compute; reflexivity. Qed.
(** 50000 buy 94954 of the other token, 86322 after somebody's purchase of the same size; a sale after it brings more *)
Example C227_example :
  pool_swap (env_of [-2]) None 10 (-2) 1 50000 None None None None xW = Ok (94954, mk1) /\
  (exists w', pool_swap (env_of [-4]) None 10 (-4) 1 50000 None None None None xW = Ok (94954, w')) /\
  pool_swap (env_of [-4]) None 10 (-4) 1 50000 None None None None mk1 = Ok (86322, mk2) /\
  (exists w', pool_swap (env_of [-4]) None 10 (-4) 2 50000 None None None None xW = Ok (24318, w')) /\
  (exists w', pool_swap (env_of [-4]) None 10 (-4) 2 50000 None None None None mk1 = Ok (26778, w')).
Proof.
  split; [vm_compute; reflexivity|]. split; [eexists; vm_compute; reflexivity|]. split; [vm_compute; reflexivity|].
  split; eexists; vm_compute; reflexivity.
Qed.
(** the trader around that purchase gets 54433 back for 50000; the purchase of 86581 cost 50000 instead of
    the 45249 (rounded down) it would have cost before *)
Example C228_example : side xP 1 1000000 2000000 2 /\
  (exists w', pool_swap (env_of [-2]) None 10 (-2) 2 94954 None None None None mk2 = Ok (54433, w')) /\
  pool_at mk1 10 (set_p_res xP 1050000 1904761) /\ pool_at mk2 10 (set_p_res xP 1100000 1818180) /\ 1904761 - 1818180 = 86581 /\
  1000000 * 86581 / (2000000 - 86581) = 45249.
Proof.
  split; [left; vm_compute; auto|]. split; [eexists; vm_compute; reflexivity|].
  split; [vm_compute; reflexivity|]. split; [vm_compute; reflexivity|]. split; vm_compute; reflexivity.
Qed.
Definition mk3 : World := after (pool_provide (env_of [-4]) None 10 (-4) (Some 1000) None (Some 2005) None None None xW).
Example C229_example :
  pool_provide (env_of [-4]) None 10 (-4) (Some 1000) None (Some 2005) None None None xW = Ok (tt, mk3) /\ pool_at mk3 10 (set_p_res (set_p_total xP 1415627) 1001000 2002000) /\ 1415627 - p_total xP = 1414 /\
  bal xW 1 (-4) - bal mk3 1 (-4) = 1000 /\ 1414 * 1001000 / 1415627 = 999 /\ 1414 * 2002000 / 1415627 = 1999.
Proof.
  split; [vm_compute; reflexivity|]. split; [vm_compute; reflexivity|]. split; [vm_compute; reflexivity|].
  split; [vm_compute; reflexivity|]. split; vm_compute; reflexivity.
Qed.
