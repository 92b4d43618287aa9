(** Exact conditions under which calls succeed (C120-C126). *)
From Coq Require Import ZArith List Bool Lia.
From Coq Require Import ZifyBool.
From Verif Require Import Base FMap Decimal DecimalProofs Curve World Token TokenProofs Frame Stake Pool PoolProofs
  Stable StableProofs Rewards Vest Factory Router System SysFrame SysInv SysPool SysStable SysSupply
  SysVest SysStake SysRewards Script Runs Props_Token Props_Pool Props_Stable Props_Vest Props_Stake.
Import ListNotations.
Open Scope Z_scope.

(** ** Running forwards *)
Lemma run_deadline code dl w : (forall d, dl = Some d -> w_now w <= d) -> check_deadline code dl w = Ok (tt, w).
Proof.
  intros D. unfold check_deadline. rewrite (run_bind _ _ _ (w_now w) w) by apply run_now.
  apply run_guard. destruct dl as [d|]; [|reflexivity]. specialize (D d eq_refl). lia.
Qed.
Lemma run_get_pool a p w : fget a (w_pool w) = Some p -> get_pool a w = Ok (p, w).
Proof. unfold get_pool. intros ->. reflexivity. Qed.
Lemma run_get_stable a p w : fget a (w_stable w) = Some p -> get_stable a w = Ok (p, w).
Proof. unfold get_stable. intros ->. reflexivity. Qed.
Lemma run_get_stake a p w : fget a (w_stake w) = Some p -> get_stake a w = Ok (p, w).
Proof. unfold get_stake. intros ->. reflexivity. Qed.
Lemma run_get_tok a k w : fget a (w_tok w) = Some k -> get_tok a w = Ok (k, w).
Proof. unfold get_tok. intros ->. reflexivity. Qed.
Lemma run_balance t a w : is_tok w t -> tok_balance t a w = Ok (bal w t a, w).
Proof.
  intros [k Hk]. unfold tok_balance. rewrite (run_bind _ _ _ k w) by (apply run_get_tok; auto).
  rewrite (bal_get t k) by auto. reflexivity.
Qed.

Lemma is_tok_dec w w' t : (forall x, tdec w' x = tdec w x) -> is_tok w t -> is_tok w' t.
Proof.
  intros D [k Hk]. specialize (D t). unfold tdec, is_tok in *. rewrite Hk in D.
  destruct (fget t (w_tok w')) eqn:E; [eauto|discriminate].
Qed.

Lemma run_transfer e c t from to amt w : Good w -> authed e c from = true -> is_tok w t ->
  0 <= amt <= bal w t from -> (from = to \/ bal w t to + amt <= I128_MAX) ->
  exists w', tok_transfer e c t from to amt w = Ok (tt, w') /\ Moved t from to amt w w'.
Proof.
  intros G A T L F.
  assert (X : exists w', tok_transfer e c t from to amt w = Ok (tt, w')).
  { destruct (Z.eq_dec from to) as [->|N].
    - destruct T as [k Hk]. rewrite !(bal_get t k) in * by auto. pose proof (gd_tok _ G _ _ Hk) as TG.
      pose proof (tg_range _ TG to).
      unfold tok_transfer. rewrite (run_bind _ _ _ tt w) by (apply run_auth; auto).
      rewrite (run_bind _ _ _ tt w) by (apply run_guard; unfold nonneg; lia).
      unfold upd_tok. rewrite (run_bind _ _ _ k w) by (unfold get_tok; rewrite Hk; auto).
      assert (E1 : tk_spend to amt k = Ok (tk_write_balance to (tk_balance to k - amt) k)).
      { unfold tk_spend. destruct (Z.ltb_spec (tk_balance to k) amt); [lia|]. simpl.
        unfold sub_i. rewrite chk_ok; [reflexivity|]. unfold in_i128, I128_MIN, I128_MAX in *. lia. }
      rewrite E1. unfold rbind at 1. unfold tk_receive. rewrite tk_balance_write, Z.eqb_refl.
      unfold add_i. rewrite chk_ok by (unfold in_i128, I128_MIN, I128_MAX in *; lia).
      eexists. reflexivity.
    - apply tok_transfer_runs; auto. lia. }
  destruct X as [w' X]. exists w'. split; [exact X|]. apply (tok_transfer_moved _ _ _ _ _ _ _ _ _ X).
Qed.

Lemma run_burn e c t from amt w : Good w -> authed e c from = true -> is_tok w t ->
  0 <= amt <= bal w t from -> exists w', tok_burn e c t from amt w = Ok (tt, w') /\ Burned t from amt w w'.
Proof.
  intros G A T L.
  assert (X : exists w', tok_burn e c t from amt w = Ok (tt, w')).
  { destruct T as [k Hk]. rewrite !(bal_get t k) in * by auto. pose proof (gd_tok _ G _ _ Hk) as TG.
    pose proof (tg_range _ TG from).
    unfold tok_burn. rewrite (run_bind _ _ _ tt w) by (apply run_auth; auto).
    rewrite (run_bind _ _ _ tt w) by (apply run_guard; unfold nonneg; lia).
    unfold upd_tok. rewrite (run_bind _ _ _ k w) by (unfold get_tok; rewrite Hk; auto).
    assert (E1 : tk_spend from amt k = Ok (tk_write_balance from (tk_balance from k - amt) k)).
    { unfold tk_spend. destruct (Z.ltb_spec (tk_balance from k) amt); [lia|]. simpl.
      unfold sub_i. rewrite chk_ok; [reflexivity|]. unfold in_i128, I128_MIN, I128_MAX in *. lia. }
    rewrite E1. eexists. reflexivity. }
  destruct X as [w' X]. exists w'. split; [exact X|]. apply (tok_burn_burned _ _ _ _ _ _ _ _ X).
Qed.

Lemma run_mint e c t to amt w a : Good w -> tadmin w t = Some a -> authed e c a = true ->
  0 <= amt -> bal w t to + amt <= I128_MAX ->
  exists w', tok_mint e c t to amt w = Ok (tt, w') /\ Minted t to amt w w'.
Proof.
  intros G T A P F.
  assert (X : exists w', tok_mint e c t to amt w = Ok (tt, w')).
  { unfold tadmin in T. destruct (fget t (w_tok w)) as [k|] eqn:Hk; [|discriminate]. inversion T; subst a.
    rewrite (bal_get t k) in F by auto. pose proof (gd_tok _ G _ _ Hk) as TG.
    pose proof (tg_range _ TG to).
    unfold tok_mint. rewrite (run_bind _ _ _ tt w) by (apply run_guard; unfold nonneg; lia).
    rewrite (run_bind _ _ _ k w) by (apply run_get_tok; auto).
    rewrite (run_bind _ _ _ tt w) by (apply run_auth; auto).
    unfold upd_tok. rewrite (run_bind _ _ _ k w) by (apply run_get_tok; auto).
    unfold tk_receive, add_i. rewrite chk_ok by (unfold in_i128, I128_MIN, I128_MAX in *; lia).
    eexists. reflexivity. }
  destruct X as [w' X]. exists w'. split; [exact X|]. apply (tok_mint_minted _ _ _ _ _ _ _ _ X).
Qed.

Lemma Moved_good e self K t from to amt w w' : Good w -> fget self (w_code w) = Some K ->
  tok_transfer e (Some self) t from to amt w = Ok (tt, w') -> Good w'.
Proof.
  intros G C X. apply (frame_transfer e (Some self) K) in X. apply X; auto. intros s Es. inversion Es; subst; auto.
Qed.
Lemma Burned_good e self K t from amt w w' : Good w -> fget self (w_code w) = Some K ->
  tok_burn e (Some self) t from amt w = Ok (tt, w') -> Good w'.
Proof.
  intros G C X. apply (frame_burn e (Some self) K) in X. apply X; auto. intros s Es. inversion Es; subst; auto.
Qed.
Lemma Minted_good e self K t to amt w w' : Good w -> fget self (w_code w) = Some K ->
  tok_mint e (Some self) t to amt w = Ok (tt, w') -> Good w'.
Proof.
  intros G C X. apply (frame_mint e (Some self) K) in X. apply X; auto. intros s Es. inversion Es; subst; auto.
Qed.

Lemma mv_code t f to a w w' : Moved t f to a w w' -> w_code w' = w_code w.
Proof. intros M. rewrite (mv_rest _ _ _ _ _ _ M). reflexivity. Qed.
Lemma bn_code t f a w w' : Burned t f a w w' -> w_code w' = w_code w.
Proof. intros M. rewrite (bn_rest _ _ _ _ _ M). reflexivity. Qed.
Lemma mt_code t f a w w' : Minted t f a w w' -> w_code w' = w_code w.
Proof. intros M. rewrite (mt_rest _ _ _ _ _ M). reflexivity. Qed.

(** ** Arithmetic *)
Lemma from_ratio_runs n d : 0 <= n -> 0 < d -> n * DEC <= I128_MAX ->
  dec_from_ratio n d = Ok (n * DEC / d).
Proof.
  intros N D F. assert (P : 0 <= n * DEC) by (unfold DEC; lia).
  unfold dec_from_ratio. destruct (Z.eqb_spec d 0); [lia|].
  unfold mul_i. rewrite chk_ok by (unfold in_i128, I128_MIN in *; lia). unfold rbind.
  unfold div_i. destruct (Z.eqb_spec d 0); [lia|]. rewrite quot_nonneg_div by lia.
  assert (0 <= n * DEC / d <= n * DEC).
  { split; [apply Z.div_pos; lia|]. apply Z.div_le_upper_bound; nia. }
  rewrite chk_ok by (unfold in_i128, I128_MIN in *; lia). reflexivity.
Qed.
Lemma from_ratio_fits n d r : dec_from_ratio n d = Ok r -> n * DEC <= I128_MAX.
Proof.
  unfold dec_from_ratio, mul_i, chk, in_i128. destruct (d =? 0); [discriminate|]. intros E.
  destruct (Z.leb_spec (n * DEC) I128_MAX); [assumption|]. rewrite andb_false_r in E. discriminate.
Qed.
Lemma mul_dec_runs x d : 0 <= x -> 0 <= d -> x * d <= I128_MAX -> i_mul_dec x d = Ok (x * d / DEC).
Proof.
  intros X D F. unfold i_mul_dec.
  destruct (Z.eqb_spec x 0) as [->|Nx]; [simpl; rewrite Z.div_0_l by (unfold DEC; lia); reflexivity|].
  destruct (Z.eqb_spec d 0) as [->|Nd]; [simpl; rewrite Z.mul_0_r, Z.div_0_l by (unfold DEC; lia); reflexivity|].
  cbn [orb]. assert (P : 0 <= x * d) by nia.
  unfold mul_i. rewrite chk_ok by (unfold in_i128, I128_MIN in *; lia). unfold rbind.
  unfold div_i. destruct (Z.eqb_spec DEC 0); [unfold DEC in *; lia|]. rewrite quot_nonneg_div by (unfold DEC; lia).
  assert (0 <= x * d / DEC <= x * d).
  { split; [apply Z.div_pos; unfold DEC; lia|]. apply Z.div_le_upper_bound; unfold DEC; nia. }
  rewrite chk_ok by (unfold in_i128, I128_MIN in *; lia). reflexivity.
Qed.
Lemma mul_dec_fits x d r : i_mul_dec x d = Ok r -> x * d <= I128_MAX.
Proof.
  unfold i_mul_dec. destruct (Z.eqb_spec x 0) as [->|]; [intros _; unfold I128_MAX; lia|].
  destruct (Z.eqb_spec d 0) as [->|]; [intros _; unfold I128_MAX; lia|]. cbn [orb]. unfold mul_i, chk, in_i128. intros E.
  destruct (Z.leb_spec (x * d) I128_MAX); [assumption|]. rewrite andb_false_r in E. discriminate.
Qed.

(** ** Shares *)
Lemma frame_good {A} e self K (m : ST World A) w x w' : safe (Frame e (Some self) K) m ->
  m w = Ok (x, w') -> Good w -> fget self (w_code w) = Some K -> Good w' /\ fget self (w_code w') = Some K.
Proof.
  intros F X G C. destruct (F _ _ _ X G) as [G' [E _]].
  - intros s Es. inversion Es; subst; auto.
  - split; [exact G'|]. apply E. exact C.
Qed.

Lemma run_burn_shares e self p amt w : Good w -> fget self (w_pool w) = Some p -> is_tok w (p_share p) ->
  0 <= amt <= bal w (p_share p) self -> 0 <= p_total p - amt -> p_total p <= I128_MAX ->
  exists w', burn_shares e self amt w = Ok (tt, w').
Proof.
  intros G Hp T B F1 F2. unfold burn_shares. rewrite (run_bind _ _ _ p w) by (apply run_get_pool; auto).
  destruct (run_burn e (Some self) (p_share p) self amt w G) as [w1 [X1 M1]]; auto.
  { unfold authed. rewrite Z.eqb_refl. apply orb_true_r. }
  rewrite (run_bind _ _ _ tt w1) by exact X1.
  rewrite (run_bind _ _ _ (p_total p - amt) w1).
  2:{ apply run_lift. unfold sub_i. apply chk_ok. unfold in_i128, I128_MIN. lia. }
  eexists. reflexivity.
Qed.

(** ** C120 XYK withdrawals: exactly when they succeed *)
Theorem C120_withdrawal_succeeds_iff H w e self p u s m1 m2 dl :
  reachable H w -> pool_at w self p ->
  let ratio := s * 10^18 / p_total p in
  let a := p_ra p * ratio / 10^18 in
  let b := p_rb p * ratio / 10^18 in
  (exists r w', pool_withdraw e None self u s m1 m2 dl w = Ok (r, w')) <->
  (signs e u = true /\ (forall d, dl = Some d -> w_now w <= d) /\
   0 < s <= bal w (p_share p) u /\ 0 < m1 <= a /\ 0 < m2 <= b /\
   s * 10^18 <= I128_MAX /\ p_ra p * ratio <= I128_MAX /\ p_rb p * ratio <= I128_MAX /\
   bal w (p_ta p) u + a <= I128_MAX /\ bal w (p_tb p) u + b <= I128_MAX).
Proof.
  intros R Hp ratio a b. pose proof (reach_good _ _ R) as G. pose proof (gd_cpool _ G _ _ Hp) as Hc.
  pose proof (reach_pool _ _ R _ _ Hp) as I. pose proof (gd_pos _ G _ _ Hc) as Pself.
  pose proof (pi_ord _ _ _ I) as Od. pose proof (pi_sa _ _ _ I) as Sa. pose proof (pi_sb _ _ _ I) as Sb.
  pose proof (pi_ra _ _ _ I) as Ra. pose proof (pi_rb _ _ _ I) as Rb.
  pose proof (pi_sup _ _ _ I) as Su. pose proof (pi_fit _ _ _ I) as Fit.
  split.
  - intros [[a0 b0] [w' X]]. pose proof X as X0.
    apply pool_withdraw_ok in X. destruct X as [Dl [Au [p0 [ratio0 [w1 [w2 [w3 [w4 E]]]]]]]].
    assert (Ns : u <> self) by (eapply (sender_not_self H w e None self); [exact R|exact Hc|discriminate|exact Au]).
    destruct E as [Ep _ [Ps [Pma Pmb]] Nt Er Ea Eb [Ma Mb] Ei Ebn Eo1 Eo2 Ee Ep'].
    unfold pool_at in Hp. rewrite Hp in Ep. inversion Ep; subst p0.
    assert (T1 : 1000 <= p_total p) by (destruct (pi_min _ _ _ I); tauto).
    assert (Er' := from_ratio_fits _ _ _ Er). rewrite from_ratio_runs in Er by lia.
    change DEC with (10^18) in *. assert (Er1 : ratio0 = ratio) by (unfold ratio; congruence). subst ratio0.
    assert (Pr : 0 <= ratio) by (apply Z.div_pos; lia).
    assert (Ea' := mul_dec_fits _ _ _ Ea). rewrite mul_dec_runs in Ea by lia.
    assert (Eb' := mul_dec_fits _ _ _ Eb). rewrite mul_dec_runs in Eb by lia.
    change DEC with (10^18) in *. assert (Ea1 : a0 = a) by (unfold a; congruence).
    assert (Eb1 : b0 = b) by (unfold b; congruence). subst a0 b0.
    assert (Sg : signs e u = true) by (unfold authed in Au; rewrite orb_false_r in Au; exact Au).
    pose proof (mv_le _ _ _ _ _ _ Ei) as Ls.
    pose proof (mv_fit _ _ _ _ _ _ Eo1) as F1. pose proof (mv_fit _ _ _ _ _ _ Eo2) as F2.
    rewrite (mv_bal _ _ _ _ _ _ Eo1), (bn_bal _ _ _ _ _ Ebn), (mv_bal _ _ _ _ _ _ Ei) in F1.
    rewrite (mv_bal _ _ _ _ _ _ Eo2), (mv_bal _ _ _ _ _ _ Eo1), (bn_bal _ _ _ _ _ Ebn), (mv_bal _ _ _ _ _ _ Ei) in F2.
    rewrite !Z.eqb_refl in F1, F2. unfold ind in F1, F2.
    split; [assumption|]. split; [assumption|]. split; [lia|]. split; [lia|]. split; [lia|].
    split; [assumption|]. split; [assumption|]. split; [assumption|].
    split.
    + destruct (Z.eqb_spec (p_ta p) (p_share p)); [congruence|]. destruct (Z.eqb_spec u self); [congruence|].
      simpl in F1. lia.
    + destruct (Z.eqb_spec (p_tb p) (p_share p)); [congruence|]. destruct (Z.eqb_spec (p_tb p) (p_ta p)); [lia|].
      destruct (Z.eqb_spec u self); [congruence|]. simpl in F2. lia.
  - intros [Sg [Dl [Ls [La [Lb [F0 [F1 [F2 [F3 F4]]]]]]]]].
    assert (Nu : u <> self).
    { intros ->. rewrite signs_neg in Sg by lia. discriminate. }
    pose proof (good_supply2 w (p_share p) self u G (not_eq_sym Nu)) as G2.
    pose proof (good_bal w (p_share p) self G) as G3.
    assert (Nt : p_total p <> 0).
    { intros T0. lia. }
    assert (T1 : 1000 <= p_total p) by (destruct (pi_min _ _ _ I); tauto).
    assert (Pr : 0 <= ratio) by (apply Z.div_pos; lia).
    assert (Na : 0 < p_ra p).
    { destruct (Z.eq_dec (p_ra p) 0) as [E0|]; [|lia]. unfold a in La. rewrite E0, Z.mul_0_l, Z.div_0_l in La by lia. lia. }
    assert (Nb : 0 < p_rb p).
    { destruct (Z.eq_dec (p_rb p) 0) as [E0|]; [|lia]. unfold b in Lb. rewrite E0, Z.mul_0_l, Z.div_0_l in Lb by lia. lia. }
    assert (Rle : ratio <= 10^18).
    { apply Z.div_le_upper_bound; nia. }
    assert (Aa : a <= p_ra p) by (apply Z.div_le_upper_bound; nia).
    assert (Ab : b <= p_rb p) by (apply Z.div_le_upper_bound; nia).
    assert (Tsh : is_tok w (p_share p)) by (apply (bal_is_tok w _ u); lia).
    assert (Tta : is_tok w (p_ta p)) by (apply (bal_is_tok w _ self); lia).
    assert (Ttb : is_tok w (p_tb p)) by (apply (bal_is_tok w _ self); lia).
    unfold pool_withdraw.
    rewrite (run_bind _ _ _ tt w) by (apply run_enter; auto).
    rewrite (run_bind _ _ _ tt w) by (apply run_deadline; auto).
    rewrite (run_bind _ _ _ tt w) by (apply run_guard; unfold vpos; lia).
    rewrite (run_bind _ _ _ tt w) by (apply run_auth; unfold authed; rewrite Sg; auto).
    rewrite (run_bind _ _ _ p w) by (apply run_get_pool; auto).
    destruct (run_transfer e (Some self) (p_share p) u self s w G) as [w1 [X1 M1]]; auto; try lia.
    { unfold authed. rewrite Sg. auto. }
    destruct (frame_good _ _ KPool _ _ _ _ (frame_transfer e (Some self) KPool _ _ _ _ ) X1 G Hc) as [G1 Hc1].
    rewrite (run_bind _ _ _ tt w1) by exact X1.
    rewrite (run_bind _ _ _ tt w1) by (apply run_guard; lia).
    rewrite (run_bind _ _ _ ratio w1) by (apply run_lift, from_ratio_runs; unfold DEC; lia).
    rewrite (run_bind _ _ _ a w1) by (apply run_lift, mul_dec_runs; lia).
    rewrite (run_bind _ _ _ b w1) by (apply run_lift, mul_dec_runs; lia).
    rewrite (run_bind _ _ _ tt w1) by (apply run_guard; lia).
    assert (Hp1 : fget self (w_pool w1) = Some p) by (rewrite (mv_pool _ _ _ _ _ _ M1); exact Hp).
    destruct (run_burn_shares e self p s w1 G1 Hp1) as [w2 X2]; try lia.
    { eapply is_tok_dec; [apply M1|auto]. }
    { rewrite (mv_bal _ _ _ _ _ _ M1), !Z.eqb_refl. unfold ind. cbn [andb].
      destruct (Z.eqb_spec self u); [congruence|]. lia. }
    rewrite (run_bind _ _ _ tt w2) by exact X2.
    destruct (frame_good _ _ KPool _ _ _ _ (frame_burn_shares e self s) X2 G1 Hc1) as [G2' Hc2].
    apply burn_shares_ok in X2. destruct X2 as [p2 [w2' [Ep2 [B2 [Ew2 Et2]]]]].
    rewrite Hp1 in Ep2. inversion Ep2; subst p2.
    assert (B2a : forall t x, t <> p_share p -> bal w2 t x = bal w t x).
    { intros t x Nx. rewrite (bal_wtok w2' w2) by auto. rewrite (bn_bal _ _ _ _ _ B2), (mv_bal _ _ _ _ _ _ M1).
      destruct (Z.eqb_spec t (p_share p)); [congruence|]. unfold ind; simpl. lia. }
    assert (T2 : forall t, is_tok w t -> is_tok w2 t).
    { intros t Ht. apply (is_tok_dec w2'). { intros x. unfold tdec. rewrite Et2. reflexivity. }
      eapply is_tok_dec; [apply B2|]. eapply is_tok_dec; [apply M1|auto]. }
    destruct (run_transfer e (Some self) (p_ta p) self u a w2 G2') as [w3 [X3 M3]]; auto.
    { unfold authed. rewrite Z.eqb_refl. apply orb_true_r. }
    { rewrite B2a by congruence. lia. }
    { right. rewrite B2a by congruence. lia. }
    rewrite (run_bind _ _ _ tt w3) by exact X3.
    destruct (frame_good _ _ KPool _ _ _ _ (frame_transfer e (Some self) KPool _ _ _ _ ) X3 G2' Hc2) as [G3' Hc3].
    assert (B3a : forall x, bal w3 (p_tb p) x = bal w (p_tb p) x).
    { intros x. rewrite (mv_bal _ _ _ _ _ _ M3), B2a by congruence.
      destruct (Z.eqb_spec (p_tb p) (p_ta p)); [lia|]. unfold ind; simpl. lia. }
    destruct (run_transfer e (Some self) (p_tb p) self u b w3 G3') as [w4 [X4 M4]]; auto.
    { unfold authed. rewrite Z.eqb_refl. apply orb_true_r. }
    { eapply is_tok_dec; [apply M3|auto]. }
    { rewrite B3a. lia. }
    { right. rewrite B3a. lia. }
    rewrite (run_bind _ _ _ tt w4) by exact X4.
    rewrite (run_bind _ _ _ (p_ra p - a) w4).
    2:{ apply run_lift. unfold sub_i. apply chk_ok. pose proof (good_bal w (p_ta p) self G). unfold in_i128, I128_MIN. lia. }
    rewrite (run_bind _ _ _ (p_rb p - b) w4).
    2:{ apply run_lift. unfold sub_i. apply chk_ok. pose proof (good_bal w (p_tb p) self G). unfold in_i128, I128_MIN. lia. }
    rewrite (run_bind _ _ _ (set_p_total p (p_total p - s)) w4).
    2:{ apply run_get_pool. rewrite (mv_pool _ _ _ _ _ _ M4), (mv_pool _ _ _ _ _ _ M3). exact Ew2. }
    eexists _, _. reflexivity.
Qed.
Print Assumptions C120_withdrawal_succeeds_iff.

(** ** C121 XYK swaps: exactly when they succeed *)
Lemma prod_u256 a b : 0 <= a <= I128_MAX -> 0 <= b <= I128_MAX -> 0 <= a * b <= U256_MAX.
Proof.
  intros A B. split; [nia|].
  transitivity (I128_MAX * I128_MAX); [apply Z.mul_le_mono_nonneg; lia|]. vm_compute. discriminate.
Qed.
Lemma i2u_runs x : 0 <= x -> i2u x = Ok x.
Proof. intros. unfold i2u. destruct (Z.ltb_spec x 0); [lia|reflexivity]. Qed.
Lemma w_runs x : 0 <= x <= U256_MAX -> chk in_u256 x = Ok x.
Proof. intros. apply chk_ok. unfold in_u256. lia. Qed.
Lemma div_w_runs a b : b <> 0 -> div_w a b = Ok (a / b).
Proof. intros. unfold div_w. destruct (Z.eqb_spec b 0); [lia|reflexivity]. Qed.
Lemma w2i_runs x : x <= I128_MAX -> w2i x = Ok x.
Proof. intros. unfold w2i. destruct (Z.leb_spec x I128_MAX); [reflexivity|lia]. Qed.

Lemma fee_le g f : 0 <= g -> 0 <= f <= 10000 -> 0 <= g * f / 10000 <= g.
Proof.
  intros G F. split; [apply Z.div_pos; nia|]. apply Z.div_le_upper_bound; nia.
Qed.

Lemma compute_swap_runs x y dx f : 0 < x <= I128_MAX -> 0 <= y <= I128_MAX -> 0 <= dx <= I128_MAX ->
  0 <= f <= 10000 ->
  let g := y - x * y / (x + dx) in
  g <= dx * y / x -> dx * y / x - g <= I128_MAX ->
  compute_swap x y dx (dec_bps f) 0 = Ok (mkComputed (g - g * f / 10000) (dx * y / x - g) (g * f / 10000) 0).
Proof.
  intros X Y D F g L1 L2.
  pose proof (gross_bounds x y dx ltac:(lia) ltac:(lia) ltac:(lia)) as [Bg _]. fold (gross_out x y dx) in g. fold g in Bg.
  pose proof (fee_le g f (proj1 Bg) F) as Fl.
  assert (M : I128_MAX + I128_MAX <= U256_MAX) by (vm_compute; discriminate).
  assert (DM : DEC <= I128_MAX) by (vm_compute; discriminate).
  assert (Rt : 0 <= dec_bps f <= DEC) by (unfold dec_bps, DEC; lia).
  assert (PW : I128_MAX * I128_MAX <= U256_MAX) by (vm_compute; discriminate).
  pose proof (prod_u256 x y ltac:(lia) ltac:(lia)) as P1.
  pose proof (prod_u256 dx y ltac:(lia) ltac:(lia)) as P2.
  pose proof (prod_u256 g (dec_bps f) ltac:(lia) ltac:(lia)) as P3.
  unfold compute_swap, rbind.
  rewrite !i2u_runs by (try apply Rt; lia). cbv beta iota.
  unfold mul_w, add_w, sub_w. rewrite (w_runs (x * y)) by lia. cbv beta iota.
  rewrite (w_runs (x + dx)) by lia. cbv beta iota. rewrite div_w_runs by lia. cbv beta iota.
  change (y - x * y / (x + dx)) with g. rewrite (w_runs g) by lia. cbv beta iota.
  rewrite (w_runs (dx * y)) by lia. cbv beta iota. rewrite div_w_runs by lia. cbv beta iota.
  rewrite (w_runs (dx * y / x - g)) by lia. cbv beta iota.
  rewrite (w_runs (g * dec_bps f)) by lia. cbv beta iota. rewrite div_w_runs by (unfold DEC; lia). cbv beta iota.
  rewrite fee_floor. rewrite (w_runs (g - g * f / 10000)) by lia. cbv beta iota.
  change (dec_bps 0) with 0. rewrite i2u_runs by lia. cbv beta iota. rewrite Z.mul_0_r.
  rewrite (w_runs 0) by lia. cbv beta iota. rewrite div_w_runs by (unfold DEC; lia). cbv beta iota.
  change (0 / DEC) with 0. rewrite Z.sub_0_r. rewrite (w_runs (g - g * f / 10000)) by lia. cbv beta iota.
  rewrite !w2i_runs by lia. reflexivity.
Qed.

Theorem C121_swap_succeeds_iff H w e self p u offer amt mi ms dl mf x y buy :
  reachable H w -> pool_at w self p -> side p offer x y buy ->
  let gross := y - x * y / (x + amt) in
  let fee := gross * p_fee p / 10000 in
  let spread := amt * y / x - gross in
  let limit := match ms with Some s => s | None => p_maxspread p end in
  (exists ret w', pool_swap e None self u offer amt mi ms dl mf w = Ok (ret, w')) <->
  (signs e u = true /\ (forall d, dl = Some d -> w_now w <= d) /\
   (forall f, mf = Some f -> p_fee p <= f) /\ (forall s, ms = Some s -> 0 <= s <= p_maxspread p) /\
   (forall m, mi = Some m -> m <= gross - fee) /\
   0 < amt <= bal w offer u /\ 0 < x /\ 0 < gross /\
   0 <= spread /\ spread * 10^18 <= I128_MAX /\ spread * 10^18 / gross <= limit * 10^14 /\
   bal w offer self + amt <= I128_MAX /\ bal w buy u + (gross - fee) <= I128_MAX /\
   (p_feerec p <> self -> bal w buy (p_feerec p) + on (p_feerec p =? u) (gross - fee) + fee <= I128_MAX)).
Proof.
  intros R Hp Sd gross fee spread limit.
  pose proof (reach_good _ _ R) as G. pose proof (gd_cpool _ G _ _ Hp) as Hc.
  pose proof (reach_pool _ _ R _ _ Hp) as I. pose proof (gd_pos _ G _ _ Hc) as Pself.
  pose proof (pi_ord _ _ _ I) as Od.
  pose proof (pi_ra _ _ _ I) as Ra. pose proof (pi_rb _ _ _ I) as Rb.
  pose proof (pi_bps _ _ _ I) as Bp. unfold vbps in Bp.
  assert (Ff : 0 <= p_fee p <= 10000) by lia.
  assert (Fs : 0 <= p_maxspread p <= 10000) by lia. clear Bp.
  destruct (side_eq _ _ _ _ _ Sd) as [Ex [Ey Eb]].
  assert (Eo : offer = p_ta p \/ offer = p_tb p).
  { destruct Sd as [[-> _]|[-> _]]; auto. }
  assert (Nob : offer <> buy).
  { subst buy. unfold buy_of. destruct (Z.eqb_spec offer (p_ta p)); lia. }
  assert (Bx : 0 <= x <= bal w offer self).
  { subst x. unfold res_of. destruct (Z.eqb_spec offer (p_ta p)) as [->|]; [lia|]. destruct Eo; [congruence|]. subst offer. lia. }
  assert (By : 0 <= y <= bal w buy self).
  { subst y buy. unfold res_other, buy_of. destruct (Z.eqb_spec offer (p_ta p)) as [->|]; lia. }
  pose proof (good_bal w offer self G) as Gx. pose proof (good_bal w buy self G) as Gy.
  pose proof (good_bal w offer u G) as Gu.
  split.
  - intros [ret [w' X]]. apply pool_swap_ok in X. destruct X as [_ [Au [Pa [Dl X]]]].
    assert (Ns : u <> self) by (eapply (sender_not_self H w e None self); [exact R|exact Hc|discriminate|exact Au]).
    assert (Sg : signs e u = true) by (unfold authed in Au; rewrite orb_false_r in Au; exact Au).
    apply do_swap_ok in X; [|exact Ns]. destruct X as [p0 [r [w1 [w2 [w3 E]]]]].
    destruct E as [Ep _ _ En Er Emi Emf Ems Et [q [Eq Lq]] Mi Mo Mc _].
    unfold pool_at in Hp. rewrite Hp in Ep. inversion Ep; subst p0. clear Ep.
    rewrite <- Ex, <- Ey, <- Eb in *.
    apply compute_swap_ok in En. destruct En as [Nx Ny Nd Nr Ns1 Nc Nret Ncp Nrf Nsp Nspp].
    change (gross_out x y amt) with gross in Ns1, Nc, Nsp. rewrite fee_floor in Nc.
    change (gross * p_fee p / 10000) with fee in Nc.
    change (amt * y / x - gross) with spread in Nsp.
    rewrite Nsp, Ns1 in Eq.
    pose proof (from_ratio_fits _ _ _ Eq) as Fq.
    assert (Pg : 0 < gross).
    { pose proof (gross_bounds x y amt Nx Ny Nd) as [B _]. change (gross_out x y amt) with gross in B.
      destruct (Z.eq_dec gross 0) as [E0|]; [|lia]. rewrite E0 in Eq. discriminate Eq. }
    rewrite from_ratio_runs in Eq by lia.
    assert (Eq' : q = spread * 10^18 / gross) by (change DEC with (10^18) in Eq; congruence).
    pose proof (mv_le _ _ _ _ _ _ Mi) as Lu. pose proof (mv_fit _ _ _ _ _ _ Mi) as F1.
    pose proof (mv_fit _ _ _ _ _ _ Mo) as F2. pose proof (mv_fit _ _ _ _ _ _ Mc) as F3.
    rewrite (mv_bal _ _ _ _ _ _ Mi) in F1.
    rewrite (mv_bal _ _ _ _ _ _ Mo), (mv_bal _ _ _ _ _ _ Mi) in F2.
    rewrite (mv_bal _ _ _ _ _ _ Mc), (mv_bal _ _ _ _ _ _ Mo), (mv_bal _ _ _ _ _ _ Mi) in F3.
    rewrite !Z.eqb_refl in *.
    destruct (Z.eqb_spec buy offer) as [|_]; [congruence|]. destruct (Z.eqb_spec u self) as [|_]; [congruence|].
    destruct (Z.eqb_spec self u) as [|_]; [congruence|]. cbn [andb] in *. unfold ind in *.
    split; [exact Sg|]. split; [exact Dl|]. split; [exact Emf|]. split; [exact Ems|].
    split; [intros m Hm; specialize (Emi m Hm); lia|].
    split; [lia|]. split; [lia|]. split; [exact Pg|]. split; [lia|]. split; [exact Fq|].
    split.
    { rewrite <- Eq'. unfold limit, opt_or, dec_bps in *. destruct ms; lia. }
    split; [lia|]. split; [lia|]. intros Nf.
    destruct (Z.eqb_spec (p_feerec p) self) as [|_]; [congruence|]. unfold on. destruct (p_feerec p =? u); lia.
  - intros [Sg [Dl [Hmf [Hms [Hmi [La [Px [Pg [Ps [Fs1 [Ls [F1 [F2 F3]]]]]]]]]]]]].
    assert (Nu : u <> self).
    { intros ->. rewrite signs_neg in Sg by lia. discriminate. }
    assert (Mx : I128_MAX <= I128_MAX * 10^18) by (vm_compute; discriminate).
    assert (CS : compute_swap x y amt (dec_bps (p_fee p)) 0 = Ok (mkComputed (gross - fee) spread fee 0)).
    { apply compute_swap_runs; try lia; fold gross; fold spread; lia. }
    pose proof (fee_le gross (p_fee p) ltac:(lia) Ff) as Fl. fold fee in Fl.
    assert (Yg : gross <= y).
    { pose proof (gross_bounds x y amt ltac:(lia) ltac:(lia) ltac:(lia)) as [B _]. unfold gross_out in B. fold gross in B. lia. }
    assert (Tof : is_tok w offer) by (apply (bal_is_tok w _ u); lia).
    assert (Tbu : is_tok w buy) by (apply (bal_is_tok w _ self); lia).
    unfold pool_swap.
    rewrite (run_bind _ _ _ tt w) by (apply run_enter; auto).
    rewrite (run_bind _ _ _ tt w) by (apply run_deadline; auto).
    rewrite (run_bind _ _ _ tt w) by (apply run_guard; unfold vpos; lia).
    rewrite (run_bind _ _ _ tt w) by (apply run_auth; unfold authed; rewrite Sg; auto).
    unfold do_swap.
    rewrite (run_bind _ _ _ p w) by (apply run_get_pool; auto).
    rewrite (run_bind _ _ _ tt w).
    2:{ apply run_guard. destruct mf as [f|]; [|reflexivity]. specialize (Hmf f eq_refl). lia. }
    rewrite (run_bind _ _ _ tt w).
    2:{ apply run_guard. destruct ms as [s|]; [|reflexivity]. specialize (Hms s eq_refl). lia. }
    rewrite (run_bind _ _ _ tt w) by (apply run_guard; lia).
    assert (E1 : (if offer =? p_ta p then (p_ra p, p_rb p) else (p_rb p, p_ra p)) = (x, y)).
    { rewrite Ex, Ey. unfold res_of, res_other. destruct (offer =? p_ta p); reflexivity. }
    assert (E2 : (if offer =? p_ta p then (p_ta p, p_tb p) else (p_tb p, p_ta p)) = (offer, buy)).
    { rewrite Eb. unfold buy_of. destruct (Z.eqb_spec offer (p_ta p)); f_equal; lia. }
    rewrite E1, E2.
    rewrite (run_bind _ _ _ _ w) by (apply run_lift; exact CS). cbn [cs_ret cs_spread cs_comm cs_ref].
    rewrite (run_bind _ _ _ tt w).
    2:{ apply run_guard. destruct mi as [m|]; [|reflexivity]. specialize (Hmi m eq_refl). lia. }
    assert (Ab : forall k, k = self -> authed e (Some self) k = true).
    { intros k ->. unfold authed. rewrite Z.eqb_refl. apply orb_true_r. }
    rewrite (run_bind _ _ _ gross w).
    2:{ apply run_lift. unfold add_i. replace (gross - fee + fee) with gross by lia. apply chk_ok. unfold in_i128, I128_MIN. lia. }
    rewrite (run_bind _ _ _ gross w).
    2:{ apply run_lift. unfold add_i. rewrite Z.add_0_r. apply chk_ok. unfold in_i128, I128_MIN. lia. }
    rewrite (run_bind _ _ _ tt w).
    2:{ apply run_lift. unfold assert_max_spread. rewrite from_ratio_runs by (unfold DEC; lia). unfold rbind. change DEC with (10^18).
        unfold guard. replace (negb _) with true; [reflexivity|].
        symmetry. apply negb_true_iff, Z.ltb_ge. etransitivity; [exact Ls|].
        unfold limit, dec_bps. destruct ms; lia. }
    rewrite (run_bind _ _ _ _ w) by (apply run_balance; auto).
    destruct (run_transfer e (Some self) offer u self amt w G) as [w1 [X1 M1]]; auto; try lia.
    { unfold authed. rewrite Sg. auto. }
    destruct (frame_good _ _ KPool _ _ _ _ (frame_transfer e (Some self) KPool _ _ _ _ ) X1 G Hc) as [G1 Hc1].
    rewrite (run_bind _ _ _ tt w1) by exact X1.
    assert (T1 : forall t, is_tok w t -> is_tok w1 t) by (intros t Ht; eapply is_tok_dec; [apply M1|auto]).
    rewrite (run_bind _ _ _ _ w1) by (apply run_balance; auto).
    assert (Ba : bal w1 offer self = bal w offer self + amt).
    { rewrite (mv_bal _ _ _ _ _ _ M1), !Z.eqb_refl. destruct (Z.eqb_spec self u); [congruence|]. unfold ind; cbn [andb]. lia. }
    rewrite (run_bind _ _ _ amt w1).
    2:{ apply run_lift. unfold sub_i. rewrite Ba. replace (_ - _) with amt by lia. apply chk_ok. unfold in_i128, I128_MIN. lia. }
    assert (B1 : forall k, bal w1 buy k = bal w buy k).
    { intros k. rewrite (mv_bal _ _ _ _ _ _ M1). destruct (Z.eqb_spec buy offer); [congruence|]. unfold ind; cbn [andb]. lia. }
    destruct (run_transfer e (Some self) buy self u (gross - fee) w1 G1) as [w2 [X2 M2]]; auto; rewrite ?B1; try lia.
    destruct (frame_good _ _ KPool _ _ _ _ (frame_transfer e (Some self) KPool _ _ _ _ ) X2 G1 Hc1) as [G2 Hc2].
    rewrite (run_bind _ _ _ tt w2) by exact X2.
    assert (T2 : forall t, is_tok w t -> is_tok w2 t) by (intros t Ht; eapply is_tok_dec; [apply M2|auto]).
    assert (B2 : forall k, bal w2 buy k = bal w buy k - on (k =? self) (gross - fee) + on (k =? u) (gross - fee)).
    { intros k. rewrite (mv_bal _ _ _ _ _ _ M2), B1, Z.eqb_refl. reflexivity. }
    destruct (run_transfer e (Some self) buy self (p_feerec p) fee w2 G2) as [w3 [X3 M3]]; auto.
    { rewrite B2, Z.eqb_refl. destruct (Z.eqb_spec self u); [congruence|]. unfold on. lia. }
    { destruct (Z.eq_dec (p_feerec p) self) as [Ef|Nf]; [left; auto|right]. specialize (F3 Nf).
      rewrite B2. destruct (Z.eqb_spec (p_feerec p) self); [congruence|]. unfold on in *. lia. }
    rewrite (run_bind _ _ _ tt w3) by exact X3.
    rewrite (run_bind _ _ _ (x + amt) w3) by (apply run_lift, chk_ok; unfold in_i128, I128_MIN; lia).
    rewrite (run_bind _ _ _ (y - fee) w3) by (apply run_lift, chk_ok; unfold in_i128, I128_MIN; lia).
    rewrite (run_bind _ _ _ (y - fee - 0) w3) by (apply run_lift, chk_ok; unfold in_i128, I128_MIN; lia).
    rewrite (run_bind _ _ _ (y - fee - 0 - (gross - fee)) w3) by (apply run_lift, chk_ok; unfold in_i128, I128_MIN; lia).
    eexists _, _. reflexivity.
Qed.
Print Assumptions C121_swap_succeeds_iff.

(** ** C124 XYK deposits: exactly when they succeed *)
Lemma run_mint_shares e self p to amt w : Good w -> fget self (w_pool w) = Some p ->
  tadmin w (p_share p) = Some self -> 0 <= amt -> bal w (p_share p) to + amt <= I128_MAX ->
  0 <= p_total p -> p_total p + amt <= I128_MAX ->
  exists w', mint_shares e self to amt w = Ok (tt, w').
Proof.
  intros G Hp T P B F1 F2. unfold mint_shares. rewrite (run_bind _ _ _ p w) by (apply run_get_pool; auto).
  destruct (run_mint e (Some self) (p_share p) to amt w self G) as [w1 [X1 M1]]; auto.
  { unfold authed. rewrite Z.eqb_refl. apply orb_true_r. }
  rewrite (run_bind _ _ _ tt w1) by exact X1.
  rewrite (run_bind _ _ _ (p_total p + amt) w1).
  2:{ apply run_lift. unfold add_i. apply chk_ok. unfold in_i128, I128_MIN. lia. }
  eexists. reflexivity.
Qed.

Lemma mul_i_runs a b : 0 <= a -> 0 <= b -> a * b <= I128_MAX -> mul_i a b = Ok (a * b).
Proof. intros. apply chk_ok. unfold in_i128, I128_MIN. nia. Qed.
Lemma div_i_runs a b : 0 <= a <= I128_MAX -> 0 < b -> div_i a b = Ok (a / b).
Proof.
  intros A B. unfold div_i. destruct (Z.eqb_spec b 0); [lia|]. rewrite quot_nonneg_div by lia.
  assert (0 <= a / b <= a) by (split; [apply Z.div_pos; lia|apply Z.div_le_upper_bound; nia]).
  apply chk_ok. unfold in_i128, I128_MIN. lia.
Qed.

Lemma dep_side_iff d o rt ro mn slip c1 c2 : 0 < d -> 0 <= o -> 0 <= rt -> 0 <= ro ->
  let q := o * rt / ro in
  dep_side d o rt ro mn slip c1 c2 = Ok (Z.min d q) <->
  (0 < ro /\ o * rt <= I128_MAX /\ (d < q -> q * DEC <= I128_MAX /\ q * DEC / d - DEC <= slip) /\
   (forall m, mn = Some m -> m <= Z.min d q)).
Proof.
  intros Pd Po Prt Pro q. split.
  - intros X. pose proof (dep_side_ok _ _ _ _ _ _ _ _ _ X Pd Po Prt Pro) as [A [B [C [D E]]]]. fold q in E.
    split; [exact A|]. unfold dep_side, dec_sub in X. rstep X. split; [lia|]. split; [|exact D].
    intros L. split; [|apply E; exact L].
    match goal with R : (if _ then _ else _) = Ok _ |- _ => rename R into Y end.
    assert (Eq : Z.quot (o * rt) ro = q) by (unfold q; apply quot_nonneg_div; nia).
    subst. rewrite ?Eq in *. destruct (Z.ltb_spec d q); [|lia]. 
    destruct (dec_from_ratio q d) eqn:Z1; [|discriminate Y]. apply from_ratio_fits in Z1. exact Z1.
  - intros [A [B [C D]]]. unfold dep_side.
    assert (Po' : 0 <= o * rt) by nia.
    assert (Pq : 0 <= q) by (apply Z.div_pos; lia).
    rewrite mul_i_runs by lia. unfold rbind. rewrite div_i_runs by lia. change (o * rt / ro) with q.
    assert (G : guard (match mn with Some m => negb (Z.min d q <? m) | None => true end) (EContract c2) = Ok tt).
    { unfold guard. destruct mn as [m|]; [|reflexivity]. specialize (D m eq_refl).
      destruct (Z.ltb_spec (Z.min d q) m); [lia|reflexivity]. }
    destruct (Z.ltb_spec d q) as [L|L].
    + destruct (C L) as [C1 C2]. rewrite from_ratio_runs by lia.
      assert (Fr : 0 <= q * DEC / d <= q * DEC).
      { split; [apply Z.div_pos; unfold DEC; nia|]. apply Z.div_le_upper_bound; unfold DEC; nia. }
      unfold dec_sub, sub_i. rewrite chk_ok by (unfold dec_one, DEC, in_i128, I128_MIN in *; lia).
      unfold dec_one. destruct (Z.leb_spec (q * DEC / d - DEC) slip); [|lia].
      rewrite Z.min_l in * by lia. rewrite G. reflexivity.
    + rewrite Z.min_r in * by lia. rewrite G. reflexivity.
Qed.

Lemma pool_provide_fits2 e c self sender xa mina xb minb custom dl w u w' p q :
  pool_provide e c self sender (Some xa) mina (Some xb) minb custom dl w = Ok (u, w') ->
  fget self (w_pool w) = Some p -> fget self (w_pool w') = Some q ->
  (0 < p_ra p -> 0 < p_rb p -> p_ra q * p_total p <= I128_MAX /\ p_rb q * p_total p <= I128_MAX) /\
  (p_ra p = 0 -> p_rb p = 0 -> xa * xb <= I128_MAX).
Proof.
  unfold pool_provide. intros X Hp. rstep X. winv.
  match goal with x : (Z * Z)%type |- _ => destruct x as [a b] end.
  match goal with R : _ = Ok (u, w') |- _ => rename R into X end.
  rstep X. tinv. winv.
  match goal with R : fget self (w_pool w) = Some ?r |- _ => assert (r = p) by congruence; subst r end.
  match goal with R : mint_shares _ _ _ _ _ = Ok _ |- _ => apply mint_shares_ok in R;
    destruct R as [p3 [W4 [Ep3 [Mt [Eend [Etok [_ Fit]]]]]]] end.
  simpl. rewrite fget_set_same. intros Eq. inversion Eq; subst q. simpl.
  match goal with R : new_share_total _ _ _ _ _ _ _ _ = Ok _ |- _ => rename R into Nst end.
  match goal with R : (if (0 <? xa) && (0 <? xb) then _ else _) = Ok _ |- _ => rename R into Da end.
  split.
  - intros Pa Pb. unfold new_share_total in Nst.
    destruct (Z.ltb_spec 0 (p_ra p)); [|lia]. destruct (Z.ltb_spec 0 (p_rb p)); [|lia]. cbn [andb] in Nst.
    rstep Nst. lia.
  - intros Pa Pb. destruct ((0 <? xa) && (0 <? xb)); [|discriminate Da]. unfold deposit_amounts in Da. rewrite Pa, Pb in Da.
    cbn [Z.eqb andb] in Da. rstep Da. unfold new_share_total in Nst. rewrite Pa, Pb in Nst. cbn [Z.ltb Z.compare andb] in Nst.
    rstep Nst. lia.
Qed.

Definition pos_opt (o : option Z) : Prop := forall m, o = Some m -> 0 < m.
Lemma vpos_iff o : vpos o = true <-> pos_opt o.
Proof.
  unfold vpos, pos_opt. destruct o as [m|].
  - split; [intros V x E; inversion E; subst; lia|]. intros V. specialize (V m eq_refl). lia.
  - split; [intros _ x E; discriminate E|reflexivity].
Qed.

Section Deposit.
Context (H : Addr -> Salt -> Addr) (w : World) (e : Env) (self : Addr) (p : Pool) (u : Addr)
  (xa : Z) (mina : option Z) (xb : Z) (minb custom dl : option Z).
Hypothesis R : reachable H w.
Hypothesis Hp : pool_at w self p.

Let slip := match custom with Some s => s | None => p_defslip p end.

(** the part of a deposit that follows the choice of the amounts *)
Lemma provide_tail a b : signs e u = true -> (forall d, dl = Some d -> w_now w <= d) ->
  0 < xa -> 0 < xb -> pos_opt mina -> pos_opt minb -> (forall s, custom = Some s -> s <= p_maxslip p) ->
  deposit_amounts xa mina xb minb (p_ra p) (p_rb p) (dec_bps slip) = Ok (a, b) ->
  is_tok w (p_ta p) -> is_tok w (p_tb p) ->
  0 <= a <= bal w (p_ta p) u -> 0 <= b <= bal w (p_tb p) u ->
  bal w (p_ta p) self + a <= I128_MAX -> bal w (p_tb p) self + b <= I128_MAX ->
  (0 < p_ra p -> 0 < p_rb p -> (bal w (p_ta p) self + a) * p_total p <= I128_MAX /\
     (bal w (p_tb p) self + b) * p_total p <= I128_MAX) ->
  (~ (0 < p_ra p /\ 0 < p_rb p) -> p_total p = 0 /\ a * b <= I128_MAX /\ 1000 < Z.sqrt (a * b)) ->
  exists w', pool_provide e None self u (Some xa) mina (Some xb) minb custom dl w = Ok (tt, w').
Proof.
  intros Sg Dl Pa Pb Ma Mb Cs Da Ta Tb La Lb Fa Fb Later First.
  pose proof (reach_good _ _ R) as G. pose proof (gd_cpool _ G _ _ Hp) as Hc.
  pose proof (reach_pool _ _ R _ _ Hp) as I. pose proof (gd_pos _ G _ _ Hc) as Pself.
  pose proof (pi_ord _ _ _ I) as Od. pose proof (pi_sa _ _ _ I) as Sa. pose proof (pi_sb _ _ _ I) as Sb.
  pose proof (pi_ra _ _ _ I) as Ra. pose proof (pi_rb _ _ _ I) as Rb.
  pose proof (pi_sup _ _ _ I) as Su. pose proof (pi_fit _ _ _ I) as Fit.
  assert (PT : 0 <= p_total p) by (destruct (pi_min _ _ _ I); lia).
  assert (Nu : u <> self).
  { intros E. rewrite E, signs_neg in Sg by lia. discriminate. }
  unfold pool_provide.
  rewrite (run_bind _ _ _ tt w) by (apply run_enter; auto).
  rewrite (run_bind _ _ _ tt w) by (apply run_deadline; auto).
  rewrite (run_bind _ _ _ tt w).
  2:{ apply run_guard. apply vpos_iff in Ma, Mb. rewrite Ma, Mb. unfold vpos. lia. }
  rewrite (run_bind _ _ _ tt w) by (apply run_auth; unfold authed; rewrite Sg; auto).
  rewrite (run_bind _ _ _ p w) by (apply run_get_pool; auto).
  rewrite (run_bind _ _ _ tt w).
  2:{ apply run_guard. destruct custom as [s|]; [|reflexivity]. specialize (Cs s eq_refl). lia. }
  rewrite (run_bind _ _ _ (a, b) w).
  2:{ apply run_lift. destruct (Z.ltb_spec 0 xa); [|lia]. destruct (Z.ltb_spec 0 xb); [|lia]. exact Da. }
  rewrite (run_bind _ _ _ _ w) by (apply run_balance; auto).
  rewrite (run_bind _ _ _ _ w) by (apply run_balance; auto).
  destruct (run_transfer e (Some self) (p_ta p) u self a w G) as [w1 [X1 M1]]; auto.
  { unfold authed. rewrite Sg. auto. }
  destruct (frame_good _ _ KPool _ _ _ _ (frame_transfer e (Some self) KPool _ _ _ _ ) X1 G Hc) as [G1 Hc1].
  rewrite (run_bind _ _ _ tt w1) by exact X1.
  assert (B1 : forall x, bal w1 (p_tb p) x = bal w (p_tb p) x).
  { intros x. rewrite (mv_bal _ _ _ _ _ _ M1). destruct (Z.eqb_spec (p_tb p) (p_ta p)); [lia|]. unfold ind; cbn [andb]. lia. }
  destruct (run_transfer e (Some self) (p_tb p) u self b w1 G1) as [w2 [X2 M2]]; auto.
  { unfold authed. rewrite Sg. auto. }
  { eapply is_tok_dec; [apply M1|auto]. }
  { rewrite B1. lia. }
  { rewrite B1. lia. }
  destruct (frame_good _ _ KPool _ _ _ _ (frame_transfer e (Some self) KPool _ _ _ _ ) X2 G1 Hc1) as [G2 Hc2].
  rewrite (run_bind _ _ _ tt w2) by exact X2.
  assert (T2 : forall t, is_tok w t -> is_tok w2 t).
  { intros t Ht. eapply is_tok_dec; [apply M2|]. eapply is_tok_dec; [apply M1|auto]. }
  rewrite (run_bind _ _ _ _ w2) by (apply run_balance; auto).
  rewrite (run_bind _ _ _ _ w2) by (apply run_balance; auto).
  assert (Ba : bal w2 (p_ta p) self = bal w (p_ta p) self + a).
  { rewrite (mv_bal _ _ _ _ _ _ M2), (mv_bal _ _ _ _ _ _ M1), !Z.eqb_refl.
    destruct (Z.eqb_spec self u); [congruence|]. destruct (Z.eqb_spec (p_ta p) (p_tb p)); [lia|]. unfold ind; cbn [andb]. lia. }
  assert (Bb : bal w2 (p_tb p) self = bal w (p_tb p) self + b).
  { rewrite (mv_bal _ _ _ _ _ _ M2), B1, !Z.eqb_refl.
    destruct (Z.eqb_spec self u); [congruence|]. unfold ind; cbn [andb]. lia. }
  assert (Bs : forall x, bal w2 (p_share p) x = bal w (p_share p) x).
  { intros x. rewrite (mv_bal _ _ _ _ _ _ M2), (mv_bal _ _ _ _ _ _ M1).
    destruct (Z.eqb_spec (p_share p) (p_ta p)); [congruence|]. destruct (Z.eqb_spec (p_share p) (p_tb p)); [congruence|].
    unfold ind; cbn [andb]. lia. }
  pose proof (good_bal w (p_ta p) self G) as Gsa. pose proof (good_bal w (p_tb p) self G) as Gsb.
  rewrite (run_bind _ _ _ a w2).
  2:{ apply run_lift. unfold sub_i. rewrite Ba. replace (_ - _) with a by lia. apply chk_ok. unfold in_i128, I128_MIN. lia. }
  rewrite (run_bind _ _ _ b w2).
  2:{ apply run_lift. unfold sub_i. rewrite Bb. replace (_ - _) with b by lia. apply chk_ok. unfold in_i128, I128_MIN. lia. }
  rewrite Ba, Bb.
  assert (Hp2 : fget self (w_pool w2) = Some p) by (rewrite (mv_pool _ _ _ _ _ _ M2), (mv_pool _ _ _ _ _ _ M1); exact Hp).
  assert (Ad2 : tadmin w2 (p_share p) = Some self).
  { rewrite (mv_adm _ _ _ _ _ _ M2), (mv_adm _ _ _ _ _ _ M1). apply (pi_adm _ _ _ I). }
  pose proof (good_supply w (p_share p) u G) as Gu. pose proof (good_supply w (p_share p) self G) as Gs.
  pose proof (good_bal w (p_share p) u G) as Gu0. pose proof (good_bal w (p_share p) self G) as Gs0.
  unfold new_share_total.
  destruct (Z.ltb_spec 0 (p_ra p)) as [Qa|Qa]; [destruct (Z.ltb_spec 0 (p_rb p)) as [Qb|Qb]|]; cbn [andb].
  - destruct (Later Qa Qb) as [L1 L2]. clear First Later.
    set (fa := bal w (p_ta p) self + a) in *. set (fb := bal w (p_tb p) self + b) in *.
    assert (Pfa : 0 <= fa * p_total p) by nia. assert (Pfb : 0 <= fb * p_total p) by nia.
    set (n := Z.min (fa * p_total p / p_ra p) (fb * p_total p / p_rb p)).
    rewrite (run_bind _ _ _ n w2).
    2:{ rewrite (run_bind _ _ _ _ w2) by (apply run_lift, mul_i_runs; lia).
        rewrite (run_bind _ _ _ _ w2) by (apply run_lift, div_i_runs; lia).
        rewrite (run_bind _ _ _ _ w2) by (apply run_lift, mul_i_runs; lia).
        rewrite (run_bind _ _ _ _ w2) by (apply run_lift, div_i_runs; lia). reflexivity. }
    assert (N1 : p_total p <= fa * p_total p / p_ra p) by (apply Z.div_le_lower_bound; nia).
    assert (N2 : p_total p <= fb * p_total p / p_rb p) by (apply Z.div_le_lower_bound; nia).
    assert (N3 : fa * p_total p / p_ra p <= fa * p_total p) by (apply Z.div_le_upper_bound; nia).
    assert (N4 : p_total p <= n <= I128_MAX) by lia.
    rewrite (run_bind _ _ _ (n - p_total p) w2) by (apply run_lift, chk_ok; unfold in_i128, I128_MIN; lia).
    destruct (run_mint_shares e self p u (n - p_total p) w2 G2 Hp2 Ad2) as [w3 X3]; try lia.
    { rewrite Bs. lia. }
    rewrite (run_bind _ _ _ tt w3) by exact X3.
    apply mint_shares_ok in X3. destruct X3 as [q [w3' [_ [_ [E3 _]]]]].
    rewrite (run_bind _ _ _ _ w3) by (apply run_get_pool; exact E3). eexists. reflexivity.
  - destruct (First ltac:(lia)) as [Z0 [L1 L2]]. exfalso. pose proof (pi_zero _ _ _ I Z0). lia.
  - destruct (First ltac:(lia)) as [Z0 [L1 L2]]. clear First Later.
    set (s := Z.sqrt (a * b)) in *.
    assert (Ps : s <= a * b) by (apply Z.sqrt_le_lin; nia).
    assert (Y : exists w3, (m <- mlift (mul_i a b) ;; mguard (negb (m <? 0)) EPanic ;;
      (let s := Z.sqrt m in mguard (negb (s <=? MINIMUM_LIQUIDITY_AMOUNT)) (EContract 13) ;;
       mint_shares e self self MINIMUM_LIQUIDITY_AMOUNT ;; mlift (sub_i s MINIMUM_LIQUIDITY_AMOUNT))) w2 = Ok (s - 1000, w3)
      /\ mint_shares e self self MINIMUM_LIQUIDITY_AMOUNT w2 = Ok (tt, w3)).
    { destruct (run_mint_shares e self p self 1000 w2 G2 Hp2 Ad2) as [w3 X3]; rewrite ?Bs; try lia.
      exists w3. split; [|exact X3].
      rewrite (run_bind _ _ _ _ w2) by (apply run_lift, mul_i_runs; lia).
      rewrite (run_bind _ _ _ tt w2) by (apply run_guard; lia). cbv zeta. fold s.
      unfold MINIMUM_LIQUIDITY_AMOUNT.
      rewrite (run_bind _ _ _ tt w2) by (apply run_guard; lia).
      rewrite (run_bind _ _ _ tt w3) by exact X3.
      apply run_lift, chk_ok. unfold in_i128, I128_MIN. lia. }
    destruct Y as [w3 [Y X3]]. rewrite (run_bind _ _ _ (s - 1000) w3) by exact Y.
    destruct (frame_good _ _ KPool _ _ _ _ (frame_mint_shares e self self _) X3 G2 Hc2) as [G3 Hc3].
    apply mint_shares_ok in X3. destruct X3 as [q [w3' [Eq [Mt [E3 [Et _]]]]]]. rewrite Hp2 in Eq. inversion Eq; subst q.
    rewrite (run_bind _ _ _ (s - 1000 - p_total p) w3) by (apply run_lift, chk_ok; unfold in_i128, I128_MIN; lia).
    destruct (run_mint_shares e self _ u (s - 1000 - p_total p) w3 G3 E3) as [w4 X4]; cbn [p_share p_total set_p_total]; try lia.
    { unfold tadmin. rewrite Et. fold (tadmin w3' (p_share p)). rewrite (mt_adm _ _ _ _ _ Mt). exact Ad2. }
    { rewrite (bal_wtok w3' w3) by auto. rewrite (mt_bal _ _ _ _ _ Mt), Bs. destruct (Z.eqb_spec u self); [congruence|].
      unfold ind. rewrite andb_false_r. lia. }
    { unfold MINIMUM_LIQUIDITY_AMOUNT. lia. }
    { unfold MINIMUM_LIQUIDITY_AMOUNT. lia. }
    rewrite (run_bind _ _ _ tt w4) by exact X4.
    apply mint_shares_ok in X4. destruct X4 as [q4 [w4' [_ [_ [E4 _]]]]].
    rewrite (run_bind _ _ _ _ w4) by (apply run_get_pool; exact E4). eexists. reflexivity.
Qed.

(** what every successful deposit shows *)
Lemma provide_needs w' : pool_provide e None self u (Some xa) mina (Some xb) minb custom dl w = Ok (tt, w') ->
  exists a b, signs e u = true /\ (forall d, dl = Some d -> w_now w <= d) /\
  0 < xa /\ 0 < xb /\ pos_opt mina /\ pos_opt minb /\ (forall s, custom = Some s -> s <= p_maxslip p) /\
  deposit_amounts xa mina xb minb (p_ra p) (p_rb p) (dec_bps slip) = Ok (a, b) /\
  is_tok w (p_ta p) /\ is_tok w (p_tb p) /\
  0 <= a <= bal w (p_ta p) u /\ 0 <= b <= bal w (p_tb p) u /\
  bal w (p_ta p) self + a <= I128_MAX /\ bal w (p_tb p) self + b <= I128_MAX /\
  (0 < p_ra p -> 0 < p_rb p -> (bal w (p_ta p) self + a) * p_total p <= I128_MAX /\
     (bal w (p_tb p) self + b) * p_total p <= I128_MAX) /\
  (p_total p = 0 -> xa * xb <= I128_MAX /\ 1000 < Z.sqrt (a * b)).
Proof.
  intros X. pose proof (reach_good _ _ R) as G. pose proof (gd_cpool _ G _ _ Hp) as Hc.
  pose proof (reach_pool _ _ R _ _ Hp) as I.
  pose proof (pi_ord _ _ _ I) as Od. pose proof X as X0.
  apply pool_provide_ok in X. destruct X as [Dl [Au [V [p0 [ya [yb [a [b [w1 [w2 [w4 E]]]]]]]]]]].
  assert (Ns : u <> self) by (eapply (sender_not_self H w e None self); [exact R|exact Hc|discriminate|exact Au]).
  assert (Sg : signs e u = true) by (unfold authed in Au; rewrite orb_false_r in Au; exact Au).
  destruct E as [Ep _ Ea Eb Cs Da Mi1 Mi2 [n [En Cn]] _].
  unfold pool_at in Hp. rewrite Hp in Ep. inversion Ep; subst p0. inversion Ea; inversion Eb; subst ya yb.
  destruct (pool_provide_fits2 _ _ _ _ _ _ _ _ _ _ _ _ _ _ _ X0 Hp En) as [Fi1 Fi2]. cbn [p_ra p_rb set_p_res] in Fi1.
  assert (Ba : bal w2 (p_ta p) self = bal w (p_ta p) self + a).
  { rewrite (mv_bal _ _ _ _ _ _ Mi2), (mv_bal _ _ _ _ _ _ Mi1), !Z.eqb_refl.
    destruct (Z.eqb_spec self u); [congruence|]. destruct (Z.eqb_spec (p_ta p) (p_tb p)); [lia|]. unfold ind; cbn [andb]. lia. }
  assert (Bb : bal w2 (p_tb p) self = bal w (p_tb p) self + b).
  { rewrite (mv_bal _ _ _ _ _ _ Mi2), (mv_bal _ _ _ _ _ _ Mi1), !Z.eqb_refl.
    destruct (Z.eqb_spec self u); [congruence|]. destruct (Z.eqb_spec (p_tb p) (p_ta p)); [lia|]. unfold ind; cbn [andb]. lia. }
  assert (Bu : bal w1 (p_tb p) u = bal w (p_tb p) u).
  { rewrite (mv_bal _ _ _ _ _ _ Mi1). destruct (Z.eqb_spec (p_tb p) (p_ta p)); [lia|]. unfold ind; cbn [andb]. lia. }
  assert (Gx1 : bal w2 (p_ta p) self <= I128_MAX).
  { rewrite (mv_bal _ _ _ _ _ _ Mi2). destruct (Z.eqb_spec (p_ta p) (p_tb p)); [lia|]. unfold ind; cbn [andb].
    pose proof (mv_fit _ _ _ _ _ _ Mi1). lia. }
  pose proof (mv_fit _ _ _ _ _ _ Mi2) as Gx2.
  rewrite Ba, Bb in *.
  assert (V' : pos_opt mina /\ pos_opt minb /\ 0 < xa /\ 0 < xb).
  { rewrite <- !vpos_iff. unfold vpos in *. destruct (negb (xa <=? 0)) eqn:Q1; [|discriminate V].
    destruct (negb (xb <=? 0)) eqn:Q2; [|rewrite andb_false_r in V; discriminate V]. lia. }
  destruct V' as [V1 [V2 [V3 V4]]].
  assert (Tks : is_tok w (p_ta p) /\ is_tok w (p_tb p)).
  { unfold pool_provide in X0. rstep X0. winv.
    match goal with x : (Z * Z)%type |- _ => destruct x end.
    match goal with R : _ = Ok (_, w') |- _ => rename R into X0 end. rstep X0. winv.
    match goal with R : fget self (w_pool w) = Some ?r |- _ => assert (r = p) by congruence; subst r end. auto. }
  exists a, b. split; [exact Sg|]. split; [exact Dl|]. split; [exact V3|]. split; [exact V4|].
  split; [exact V1|]. split; [exact V2|]. split; [exact Cs|]. split; [exact Da|].
  split; [apply Tks|]. split; [apply Tks|].
  split; [split; [apply (mv_pos _ _ _ _ _ _ Mi1)|apply (mv_le _ _ _ _ _ _ Mi1)]|].
  split; [split; [apply (mv_pos _ _ _ _ _ _ Mi2)|rewrite <- Bu; apply (mv_le _ _ _ _ _ _ Mi2)]|].
  split; [exact Gx1|]. split; [exact Gx2|]. split; [exact Fi1|].
  intros Z0. pose proof (pi_zero _ _ _ I Z0) as [Z1 Z2]. split; [auto|].
  destruct Cn as [[Q _]|[_ [Q _]]]; [lia|exact Q].
Qed.
End Deposit.

Theorem C124_deposit_succeeds_iff H w e self p u xa mina xb minb custom dl :
  reachable H w -> pool_at w self p -> p_total p <> 0 ->
  let slip := match custom with Some s => s | None => p_defslip p end in
  let qa := xb * p_ra p / p_rb p in
  let qb := xa * p_rb p / p_ra p in
  (exists w', pool_provide e None self u (Some xa) mina (Some xb) minb custom dl w = Ok (tt, w')) <->
  (signs e u = true /\ (forall d, dl = Some d -> w_now w <= d) /\
   0 < xa /\ 0 < xb /\ pos_opt mina /\ pos_opt minb /\ (forall s, custom = Some s -> s <= p_maxslip p) /\
   0 < p_ra p /\ 0 < p_rb p /\ xb * p_ra p <= I128_MAX /\ xa * p_rb p <= I128_MAX /\
   (xa < qa -> qa * 10^18 <= I128_MAX /\ qa * 10^18 / xa <= 10^18 + slip * 10^14) /\
   (xb < qb -> qb * 10^18 <= I128_MAX /\ qb * 10^18 / xb <= 10^18 + slip * 10^14) /\
   (forall m, mina = Some m -> m <= Z.min xa qa) /\ (forall m, minb = Some m -> m <= Z.min xb qb) /\
   Z.min xa qa <= bal w (p_ta p) u /\ Z.min xb qb <= bal w (p_tb p) u /\
   (bal w (p_ta p) self + Z.min xa qa) * p_total p <= I128_MAX /\
   (bal w (p_tb p) self + Z.min xb qb) * p_total p <= I128_MAX).
Proof.
  intros R Hp Nt slip qa qb.
  pose proof (reach_good _ _ R) as G.
  pose proof (reach_pool _ _ R _ _ Hp) as I.
  pose proof (pi_ra _ _ _ I) as Ra. pose proof (pi_rb _ _ _ I) as Rb. pose proof (pi_some _ _ _ I Nt) as So.
  assert (PT : 1000 <= p_total p) by (destruct (pi_min _ _ _ I); tauto).
  assert (DA : forall a b, 0 < xa -> 0 < xb ->
    deposit_amounts xa mina xb minb (p_ra p) (p_rb p) (dec_bps slip) = Ok (a, b) ->
    a = Z.min xa qa /\ b = Z.min xb qb /\
    dep_side xa xb (p_ra p) (p_rb p) mina (dec_bps slip) 9 10 = Ok (Z.min xa qa) /\
    dep_side xb xa (p_rb p) (p_ra p) minb (dec_bps slip) 11 12 = Ok (Z.min xb qb)).
  { intros a b Pa Pb X. unfold deposit_amounts in X.
    destruct ((p_ra p =? 0) && (p_rb p =? 0)) eqn:Q; [lia|]. rstep X.
    repeat match goal with Y : dep_side _ _ _ _ _ _ _ _ = Ok _ |- _ => 
      let K := fresh in pose proof (dep_side_ok _ _ _ _ _ _ _ _ _ Y ltac:(lia) ltac:(lia) ltac:(lia) ltac:(lia)) as [_ [K _]];
      revert Y; rewrite K end. intros Y1 Y2. auto. }
  split.
  - intros [w' X].
    destruct (provide_needs H w e self p u xa mina xb minb custom dl R Hp w' X) as
      [a [b [Sg [Dl [Pa [Pb [Ma [Mb [Cs [Da [Ta [Tb [La [Lb [Fa [Fb [Later _]]]]]]]]]]]]]]]]].
    destruct (DA a b Pa Pb Da) as [Ea [Eb [Da1 Da2]]].
    apply dep_side_iff in Da1; try lia. apply dep_side_iff in Da2; try lia. fold qa in Da1. fold qb in Da2.
    destruct Da1 as [A1 [A2 [A3 A4]]]. destruct Da2 as [B1 [B2 [B3 B4]]].
    subst a b. destruct (Later B1 A1) as [L1 L2]. change DEC with (10^18) in *. unfold dec_bps in *.
    do 7 (split; [assumption|]). split; [lia|]. split; [lia|]. split; [lia|]. split; [lia|].
    split; [intros Lx; specialize (A3 Lx); split; [apply A3|]; destruct A3 as [_ A3]; apply Z.le_sub_le_add_r in A3; lia|].
    split; [intros Lx; specialize (B3 Lx); split; [apply B3|]; destruct B3 as [_ B3]; apply Z.le_sub_le_add_r in B3; lia|].
    do 2 (split; [assumption|]). do 2 (split; [lia|]). auto.
  - intros [Sg [Dl [Pa [Pb [Ma [Mb [Cs [A1 [B1 [A2 [B2 [A3 [B3 [A4 [B4 [La [Lb [L1 L2]]]]]]]]]]]]]]]]]].
    assert (Qa : 0 <= qa) by (apply Z.div_pos; nia). assert (Qb : 0 <= qb) by (apply Z.div_pos; nia).
    pose proof (good_bal w (p_ta p) self G) as Gsa. pose proof (good_bal w (p_tb p) self G) as Gsb.
    apply (provide_tail H w e self p u xa mina xb minb custom dl R Hp (Z.min xa qa) (Z.min xb qb)); auto; try lia.
    + assert (D1 : dep_side xa xb (p_ra p) (p_rb p) mina (dec_bps slip) 9 10 = Ok (Z.min xa qa)).
      { apply dep_side_iff; try lia. fold qa. split; [lia|]. split; [lia|]. split; [|exact A4].
        intros Lx. destruct (A3 Lx) as [A5 A6]. split; [exact A5|]. apply Z.le_sub_le_add_r. etransitivity; [exact A6|]. unfold dec_bps, DEC. lia. }
      assert (D2 : dep_side xb xa (p_rb p) (p_ra p) minb (dec_bps slip) 11 12 = Ok (Z.min xb qb)).
      { apply dep_side_iff; try lia. fold qb. split; [lia|]. split; [lia|]. split; [|exact B4].
        intros Lx. destruct (B3 Lx) as [A5 A6]. split; [exact A5|]. apply Z.le_sub_le_add_r. etransitivity; [exact A6|]. unfold dec_bps, DEC. lia. }
      unfold deposit_amounts. fold slip. 
      destruct (Z.leb_spec xa 0); [lia|]. destruct (Z.leb_spec xb 0); [lia|]. cbn [orb negb guard rbind].
      destruct (Z.eqb_spec (p_ra p) 0); [lia|]. cbn [andb].
      rewrite D1, D2. unfold rbind, guard.
      assert (K1 : match mina with Some a => match minb with Some b => negb ((a <? 0) || (b <? 0)) | None => true end | None => true end = true).
      { destruct mina as [ma|]; [|reflexivity]. destruct minb as [mb|]; [|reflexivity].
        specialize (Ma _ eq_refl). specialize (Mb _ eq_refl). lia. }
      assert (K2 : match mina with Some a => negb (xa <? a) | None => true end = true).
      { destruct mina as [ma|]; [|reflexivity]. specialize (A4 _ eq_refl). lia. }
      assert (K3 : match minb with Some a => negb (xb <? a) | None => true end = true).
      { destruct minb as [ma|]; [|reflexivity]. specialize (B4 _ eq_refl). lia. }
      rewrite K1, K2, K3. reflexivity.
    + apply (bal_is_tok w _ self). lia.
    + apply (bal_is_tok w _ self). lia.
    + transitivity ((bal w (p_ta p) self + Z.min xa qa) * p_total p); [nia|assumption].
    + transitivity ((bal w (p_tb p) self + Z.min xb qb) * p_total p); [nia|assumption].
Qed.
Print Assumptions C124_deposit_succeeds_iff.

Theorem C124_first_deposit_succeeds_iff H w e self p u xa mina xb minb custom dl :
  reachable H w -> pool_at w self p -> p_total p = 0 ->
  (exists w', pool_provide e None self u (Some xa) mina (Some xb) minb custom dl w = Ok (tt, w')) <->
  (signs e u = true /\ (forall d, dl = Some d -> w_now w <= d) /\
   0 < xa /\ 0 < xb /\ pos_opt mina /\ pos_opt minb /\ (forall s, custom = Some s -> s <= p_maxslip p) /\
   xa <= bal w (p_ta p) u /\ xb <= bal w (p_tb p) u /\
   bal w (p_ta p) self + xa <= I128_MAX /\ bal w (p_tb p) self + xb <= I128_MAX /\
   1001 * 1001 <= xa * xb <= I128_MAX).
Proof.
  intros R Hp Z0.
  pose proof (reach_good _ _ R) as G. pose proof (reach_pool _ _ R _ _ Hp) as I.
  destruct (pi_zero _ _ _ I Z0) as [Za Zb].
  assert (Sq : forall m, 0 <= m -> (1000 < Z.sqrt m <-> 1001 * 1001 <= m)).
  { intros m Pm. pose proof (Z.sqrt_le_square m 1001 Pm ltac:(lia)). lia. }
  split.
  - intros [w' X].
    destruct (provide_needs H w e self p u xa mina xb minb custom dl R Hp w' X) as
      [a [b [Sg [Dl [Pa [Pb [Ma [Mb [Cs [Da [Ta [Tb [La [Lb [Fa [Fb [_ First]]]]]]]]]]]]]]]]].
    destruct (First Z0) as [F1 F2].
    unfold deposit_amounts in Da. rewrite Za, Zb in Da. cbn [Z.eqb andb] in Da. rstep Da.
    rewrite Sq in F2 by nia. do 7 (split; [assumption|]). do 4 (split; [lia|]). lia.
  - intros [Sg [Dl [Pa [Pb [Ma [Mb [Cs [La [Lb [Fa [Fb [S1 S2]]]]]]]]]]]].
    apply (provide_tail H w e self p u xa mina xb minb custom dl R Hp xa xb); auto; try lia.
    + unfold deposit_amounts. rewrite Za, Zb.
      destruct (Z.leb_spec xa 0); [lia|]. destruct (Z.leb_spec xb 0); [lia|]. unfold rbind, guard. cbn [orb negb].
      assert (K1 : match mina with Some a => match minb with Some b => negb ((a <? 0) || (b <? 0)) | None => true end | None => true end = true).
      { destruct mina as [ma|]; [|reflexivity]. destruct minb as [mb|]; [|reflexivity].
        specialize (Ma _ eq_refl). specialize (Mb _ eq_refl). lia. }
      rewrite K1. reflexivity.
    + apply (bal_is_tok w _ u). lia.
    + apply (bal_is_tok w _ u). lia.
    + intros _. split; [exact Z0|]. split; [exact S2|]. apply Sq; lia.
Qed.
Print Assumptions C124_first_deposit_succeeds_iff.

(** a deposit with one of the amounts missing is refused *)
Theorem C124_one_sided_deposit_fails e c self u da mina db minb custom dl w r w' : da = None \/ db = None ->
  pool_provide e c self u da mina db minb custom dl w <> Ok (r, w').
Proof.
  intros N X. unfold pool_provide in X. rstep X.
  destruct N as [-> | ->]; [|destruct da]; discriminate.
Qed.
Print Assumptions C124_one_sided_deposit_fails.
