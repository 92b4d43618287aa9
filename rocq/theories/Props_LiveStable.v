(** Exact conditions under which stable pool calls succeed (C127). *)
From Coq Require Import ZArith List Bool Lia.
From Coq Require Import ZifyBool.
From Verif Require Import Base FMap Decimal DecimalProofs Curve World Token TokenProofs Frame Stake Pool PoolProofs
  Stable StableProofs Rewards Vest Factory Router System SysFrame SysInv SysPool SysStable SysSupply
  Script Runs Props_Token Props_Pool Props_Stable Props_Router Props_Live Props_LiveTok.
Import ListNotations.
Open Scope Z_scope.

Lemma run_stable_burn_shares e self p amt w : Good w -> fget self (w_stable w) = Some p -> is_tok w (l_share p) ->
  0 <= amt <= bal w (l_share p) self -> 0 <= l_total p - amt -> l_total p <= I128_MAX ->
  exists w', stable_burn_shares e self amt w = Ok (tt, w').
Proof.
  intros G Hp T B F1 F2. unfold stable_burn_shares. rewrite (run_bind _ _ _ p w) by (apply run_get_stable; auto).
  destruct (run_burn e (Some self) (l_share p) self amt w G) as [w1 [X1 M1]]; auto.
  { unfold authed. rewrite Z.eqb_refl. apply orb_true_r. }
  rewrite (run_bind _ _ _ tt w1) by exact X1.
  rewrite (run_bind _ _ _ (l_total p - amt) w1).
  2:{ apply run_lift. unfold sub_i. apply chk_ok. unfold in_i128, I128_MIN. lia. }
  eexists. reflexivity.
Qed.

(** ** C127 Stable pool withdrawals: exactly when they succeed *)
Theorem C127_stable_withdrawal_succeeds_iff H w e self p u s m1 m2 dl :
  reachable H w -> stable_at w self p ->
  let ratio := s * 10^18 / l_total p in
  let a := l_ra p * ratio / 10^18 in
  let b := l_rb p * ratio / 10^18 in
  (exists r w', stable_withdraw e None self u s m1 m2 dl w = Ok (r, w')) <->
  (signs e u = true /\ (forall d, dl = Some d -> w_now w <= d) /\
   0 < s <= bal w (l_share p) u /\ 0 < m1 <= a /\ 0 < m2 <= b /\
   s * 10^18 <= I128_MAX /\ l_ra p * ratio <= I128_MAX /\ l_rb p * ratio <= I128_MAX /\
   bal w (l_ta p) u + a <= I128_MAX /\ bal w (l_tb p) u + b <= I128_MAX).
Proof.
  intros R Hp ratio a b. pose proof (reach_good _ _ R) as G. pose proof (gd_cstable _ G _ _ Hp) as Hc.
  pose proof (reach_stable _ _ R _ _ Hp) as I. pose proof (gd_pos _ G _ _ Hc) as Pself.
  pose proof (li_ord _ _ _ I) as Od. pose proof (li_sa _ _ _ I) as Sa. pose proof (li_sb _ _ _ I) as Sb.
  pose proof (li_ra _ _ _ I) as Ra. pose proof (li_rb _ _ _ I) as Rb.
  pose proof (li_sup _ _ _ I) as Su. pose proof (li_fit _ _ _ I) as Fit.
  split.
  - intros [[a0 b0] [w' X]]. pose proof X as X0.
    apply stable_withdraw_ok in X. destruct X as [Dl [Au [p0 [ratio0 [w1 [w2 [w3 [w4 E]]]]]]]].
    assert (Ns : u <> self) by (eapply (sender_not_self H w e None self); [exact R|exact Hc|discriminate|exact Au]).
    destruct E as [Ep _ [Ps [Pma Pmb]] Nt Er Ea Eb [Ma Mb] Ei Ebn Eo1 Eo2 Ee Ep'].
    unfold stable_at in Hp. rewrite Hp in Ep. inversion Ep; subst p0.
    assert (T1 : 0 < l_total p) by (pose proof (li_tot _ _ _ I); lia).
    assert (Er' := from_ratio_fits _ _ _ Er). rewrite from_ratio_runs in Er by lia.
    change DEC with (10^18) in *. assert (Er1 : ratio0 = ratio) by (unfold ratio; congruence). subst ratio0.
    assert (Pr : 0 <= ratio) by (apply Z.div_pos; lia).
    assert (Ea' := mul_dec_fits _ _ _ Ea). rewrite mul_dec_runs in Ea by lia.
    assert (Eb' := mul_dec_fits _ _ _ Eb). rewrite mul_dec_runs in Eb by lia.
    change DEC with (10^18) in *. assert (Ea1 : a0 = a) by (unfold a; congruence).
    assert (Eb1 : b0 = b) by (unfold b; congruence). subst a0 b0.
    assert (Sg : signs e u = true) by (unfold authed in Au; rewrite orb_false_r in Au; exact Au).
    pose proof (mv_le _ _ _ _ _ _ Ei) as Ls.
    pose proof (mv_fit _ _ _ _ _ _ Eo1) as F1. pose proof (mv_fit _ _ _ _ _ _ Eo2) as F2.
    rewrite (mv_bal _ _ _ _ _ _ Eo1), (bn_bal _ _ _ _ _ Ebn), (mv_bal _ _ _ _ _ _ Ei) in F1.
    rewrite (mv_bal _ _ _ _ _ _ Eo2), (mv_bal _ _ _ _ _ _ Eo1), (bn_bal _ _ _ _ _ Ebn), (mv_bal _ _ _ _ _ _ Ei) in F2.
    rewrite !Z.eqb_refl in F1, F2. unfold ind in F1, F2.
    split; [assumption|]. split; [assumption|]. split; [lia|]. split; [lia|]. split; [lia|].
    split; [assumption|]. split; [assumption|]. split; [assumption|].
    split.
    + destruct (Z.eqb_spec (l_ta p) (l_share p)); [congruence|]. destruct (Z.eqb_spec u self); [congruence|].
      simpl in F1. lia.
    + destruct (Z.eqb_spec (l_tb p) (l_share p)); [congruence|]. destruct (Z.eqb_spec (l_tb p) (l_ta p)); [lia|].
      destruct (Z.eqb_spec u self); [congruence|]. simpl in F2. lia.
  - intros [Sg [Dl [Ls [La [Lb [F0 [F1 [F2 [F3 F4]]]]]]]]].
    assert (Nu : u <> self).
    { intros ->. rewrite signs_neg in Sg by lia. discriminate. }
    pose proof (good_supply2 w (l_share p) self u G (not_eq_sym Nu)) as G2.
    pose proof (good_bal w (l_share p) self G) as G3.
    assert (Nt : l_total p <> 0).
    { intros T0. lia. }
    assert (T1 : 0 < l_total p) by (pose proof (li_tot _ _ _ I); lia).
    assert (Pr : 0 <= ratio) by (apply Z.div_pos; lia).
    assert (Na : 0 < l_ra p).
    { destruct (Z.eq_dec (l_ra p) 0) as [E0|]; [|lia]. unfold a in La. rewrite E0, Z.mul_0_l, Z.div_0_l in La by lia. lia. }
    assert (Nb : 0 < l_rb p).
    { destruct (Z.eq_dec (l_rb p) 0) as [E0|]; [|lia]. unfold b in Lb. rewrite E0, Z.mul_0_l, Z.div_0_l in Lb by lia. lia. }
    assert (Rle : ratio <= 10^18).
    { apply Z.div_le_upper_bound; nia. }
    assert (Aa : a <= l_ra p) by (apply Z.div_le_upper_bound; nia).
    assert (Ab : b <= l_rb p) by (apply Z.div_le_upper_bound; nia).
    assert (Tsh : is_tok w (l_share p)) by (apply (bal_is_tok w _ u); lia).
    assert (Tta : is_tok w (l_ta p)) by (apply (bal_is_tok w _ self); lia).
    assert (Ttb : is_tok w (l_tb p)) by (apply (bal_is_tok w _ self); lia).
    unfold stable_withdraw.
    rewrite (run_bind _ _ _ tt w) by (apply run_enter; auto).
    rewrite (run_bind _ _ _ tt w) by (apply run_deadline; auto).
    rewrite (run_bind _ _ _ tt w) by (apply run_guard; unfold vpos; lia).
    rewrite (run_bind _ _ _ tt w) by (apply run_auth; unfold authed; rewrite Sg; auto).
    rewrite (run_bind _ _ _ p w) by (apply run_get_stable; auto).
    destruct (run_transfer e (Some self) (l_share p) u self s w G) as [w1 [X1 M1]]; auto; try lia.
    { unfold authed. rewrite Sg. auto. }
    destruct (frame_good _ _ KStable _ _ _ _ (frame_transfer e (Some self) KStable _ _ _ _ ) X1 G Hc) as [G1 Hc1].
    rewrite (run_bind _ _ _ tt w1) by exact X1.
    rewrite (run_bind _ _ _ tt w1) by (apply run_guard; lia).
    rewrite (run_bind _ _ _ ratio w1) by (apply run_lift, from_ratio_runs; unfold DEC; lia).
    rewrite (run_bind _ _ _ a w1) by (apply run_lift, mul_dec_runs; lia).
    rewrite (run_bind _ _ _ b w1) by (apply run_lift, mul_dec_runs; lia).
    rewrite (run_bind _ _ _ tt w1) by (apply run_guard; lia).
    assert (Hp1 : fget self (w_stable w1) = Some p) by (rewrite (mv_stable _ _ _ _ _ _ M1); exact Hp).
    destruct (run_stable_burn_shares e self p s w1 G1 Hp1) as [w2 X2]; try lia.
    { eapply is_tok_dec; [apply M1|auto]. }
    { rewrite (mv_bal _ _ _ _ _ _ M1), !Z.eqb_refl. unfold ind. cbn [andb].
      destruct (Z.eqb_spec self u); [congruence|]. lia. }
    rewrite (run_bind _ _ _ tt w2) by exact X2.
    destruct (frame_good _ _ KStable _ _ _ _ (frame_stable_burn e self s) X2 G1 Hc1) as [G2' Hc2].
    apply stable_burn_shares_ok in X2. destruct X2 as [p2 [w2' [Ep2 [B2 [Ew2 Et2]]]]].
    rewrite Hp1 in Ep2. inversion Ep2; subst p2.
    assert (B2a : forall t x, t <> l_share p -> bal w2 t x = bal w t x).
    { intros t x Nx. rewrite (bal_wtok w2' w2) by auto. rewrite (bn_bal _ _ _ _ _ B2), (mv_bal _ _ _ _ _ _ M1).
      destruct (Z.eqb_spec t (l_share p)); [congruence|]. unfold ind; simpl. lia. }
    assert (T2 : forall t, is_tok w t -> is_tok w2 t).
    { intros t Ht. apply (is_tok_dec w2'). { intros x. unfold tdec. rewrite Et2. reflexivity. }
      eapply is_tok_dec; [apply B2|]. eapply is_tok_dec; [apply M1|auto]. }
    destruct (run_transfer e (Some self) (l_ta p) self u a w2 G2') as [w3 [X3 M3]]; auto.
    { unfold authed. rewrite Z.eqb_refl. apply orb_true_r. }
    { rewrite B2a by congruence. lia. }
    { right. rewrite B2a by congruence. lia. }
    rewrite (run_bind _ _ _ tt w3) by exact X3.
    destruct (frame_good _ _ KStable _ _ _ _ (frame_transfer e (Some self) KStable _ _ _ _ ) X3 G2' Hc2) as [G3' Hc3].
    assert (B3a : forall x, bal w3 (l_tb p) x = bal w (l_tb p) x).
    { intros x. rewrite (mv_bal _ _ _ _ _ _ M3), B2a by congruence.
      destruct (Z.eqb_spec (l_tb p) (l_ta p)); [lia|]. unfold ind; simpl. lia. }
    destruct (run_transfer e (Some self) (l_tb p) self u b w3 G3') as [w4 [X4 M4]]; auto.
    { unfold authed. rewrite Z.eqb_refl. apply orb_true_r. }
    { eapply is_tok_dec; [apply M3|auto]. }
    { rewrite B3a. lia. }
    { right. rewrite B3a. lia. }
    rewrite (run_bind _ _ _ tt w4) by exact X4.
    rewrite (run_bind _ _ _ (l_ra p - a) w4).
    2:{ apply run_lift. unfold sub_i. apply chk_ok. pose proof (good_bal w (l_ta p) self G). unfold in_i128, I128_MIN. lia. }
    rewrite (run_bind _ _ _ (l_rb p - b) w4).
    2:{ apply run_lift. unfold sub_i. apply chk_ok. pose proof (good_bal w (l_tb p) self G). unfold in_i128, I128_MIN. lia. }
    rewrite (run_bind _ _ _ (set_l_total p (l_total p - s)) w4).
    2:{ apply run_get_stable. rewrite (mv_stable _ _ _ _ _ _ M4), (mv_stable _ _ _ _ _ _ M3). exact Ew2. }
    eexists _, _. reflexivity.
Qed.
Print Assumptions C127_stable_withdrawal_succeeds_iff.
(** ** C128 Stable pool swaps: exactly when they succeed, in terms of the pool's own quote *)
Lemma lside_split p offer x y buy : l_ta p <> l_tb p -> lside p offer x y buy ->
  (offer = l_ta p \/ offer = l_tb p) /\ x = l_res p offer /\ y = l_oth p offer /\ buy = l_buy p offer.
Proof.
  intros N S. unfold l_res, l_oth, l_buy. destruct S as [[-> [-> [-> ->]]]|[-> [_ [-> [-> ->]]]]].
  - rewrite Z.eqb_refl. auto.
  - destruct (Z.eqb_spec (l_tb p) (l_ta p)); [congruence|]. auto.
Qed.

Lemma stable_simulate_ok self offer amt w q w' : stable_simulate_swap self offer amt w = Ok (q, w') ->
  exists p amp, fget self (w_stable w) = Some p /\ (offer = l_ta p \/ offer = l_tb p) /\
    0 <= l_res p offer /\ 0 <= l_oth p offer /\ 0 <= amt /\ amp_of p (w_now w) = Ok amp /\
    stable_compute_swap amp (l_prec p) (l_res p offer) (l_pof p offer) (l_oth p offer) (l_pot p offer) amt
     (dec_bps (l_fee p)) = Ok (ss_ask q, ss_spread q, ss_comm q).
Proof.
  unfold stable_simulate_swap. intros X. rstep X. winv.
  match goal with R : _ = Ok (q, _) |- _ => rename R into X end.
  match goal with R : fget self (w_stable _) = Some ?r |- _ => rename r into p end.
  assert (E1 : (if offer =? l_ta p then (l_ra p, l_rb p) else (l_rb p, l_ra p)) = (l_res p offer, l_oth p offer)).
  { unfold l_res, l_oth. destruct (offer =? l_ta p); reflexivity. }
  assert (E3 : (if offer =? l_ta p then (l_preca p, l_precb p) else (l_precb p, l_preca p)) = (l_pof p offer, l_pot p offer)).
  { unfold l_pof, l_pot. destruct (offer =? l_ta p); reflexivity. }
  rewrite E1, E3 in X. cbv beta iota zeta in X. rstep X.
  match goal with x : (Z * Z * Z)%type |- _ => destruct x as [[rt sp] cm] end.
  match goal with R : _ = Ok (q, _) |- _ => rename R into X end.
  cbv beta iota zeta in X. rstep X. winv. cbn [ss_ask ss_spread ss_comm].
  eexists p, _. split; [eassumption|]. split; [lia|]. split; [lia|]. split; [lia|]. split; [lia|]. split; eauto.
Qed.

Theorem C128_stable_swap_succeeds_iff H w e self p u offer amt mi ms dl mf x y buy :
  reachable H w -> stable_at w self p -> lside p offer x y buy ->
  let limit := match ms with Some s => s | None => l_maxspread p end in
  (exists ret w', stable_swap e None self u offer amt mi ms dl mf w = Ok (ret, w')) <->
  (exists q, stable_simulate_swap self offer amt w = Ok (q, w) /\
   let gross := ss_ask q + ss_comm q in
   signs e u = true /\ (forall d, dl = Some d -> w_now w <= d) /\
   (forall f, mf = Some f -> l_fee p <= f) /\ (forall s, ms = Some s -> 0 <= s <= l_maxspread p) /\
   (forall m, mi = Some m -> m <= ss_ask q) /\
   0 < amt <= bal w offer u /\ 0 < gross /\
   ss_spread q * 10^18 <= I128_MAX /\ ss_spread q * 10^18 / gross <= limit * 10^14 /\
   bal w offer self + amt <= I128_MAX /\ bal w buy u + ss_ask q <= I128_MAX /\
   (l_feerec p <> self -> bal w buy (l_feerec p) + on (l_feerec p =? u) (ss_ask q) + ss_comm q <= I128_MAX)).
Proof.
  intros R Hp Sd limit.
  pose proof (reach_good _ _ R) as G. pose proof (gd_cstable _ G _ _ Hp) as Hc.
  pose proof (reach_stable _ _ R _ _ Hp) as I. pose proof (gd_pos _ G _ _ Hc) as Pself.
  pose proof (li_ord _ _ _ I) as Od.
  pose proof (li_ra _ _ _ I) as Ra. pose proof (li_rb _ _ _ I) as Rb.
  pose proof (li_bps _ _ _ I) as Bp.
  assert (Ff : 0 <= dec_bps (l_fee p) <= DEC) by (apply dec_bps_fee; lia). unfold vbps in Bp.
  assert (Fs : 0 <= l_maxspread p <= 10000) by lia. clear Bp.
  assert (Nab : l_ta p <> l_tb p) by lia. destruct (lside_split _ _ _ _ _ Nab Sd) as [Eo [Ex [Ey Eb]]].
  assert (Nob : offer <> buy).
  { subst buy. unfold l_buy. destruct (Z.eqb_spec offer (l_ta p)); lia. }
  assert (Bx : 0 <= x <= bal w offer self).
  { subst x. unfold l_res. destruct (Z.eqb_spec offer (l_ta p)) as [->|]; [lia|]. destruct Eo; [congruence|]. subst offer. lia. }
  assert (By : 0 <= y <= bal w buy self).
  { subst y buy. unfold l_oth, l_buy. destruct (Z.eqb_spec offer (l_ta p)) as [->|]; lia. }
  pose proof (good_bal w offer self G) as Gx. pose proof (good_bal w buy self G) as Gy.
  pose proof (good_bal w offer u G) as Gu.
  split.
  - intros [ret [w' X]].
    assert (Nn : None <> Some self) by discriminate.
    destruct (C31_swap_implies_quote _ _ _ _ _ _ _ _ _ _ _ _ _ _ R Nn X) as [q [Sq Aq]].
    destruct (stable_simulate_ok _ _ _ _ _ _ Sq) as [p1 [am1 [Ep1 [_ [_ [_ [_ [Am1 Ca1]]]]]]]].
    unfold stable_at in Hp. rewrite Hp in Ep1. inversion Ep1; subst p1. clear Ep1.
    apply stable_swap_ok in X. destruct X as [_ [Au [Pa [Dl X]]]].
    assert (Ns : u <> self) by (eapply (sender_not_self H w e None self); [exact R|exact Hc|discriminate|exact Au]).
    assert (Sg : signs e u = true) by (rewrite authed_none in Au; exact Au).
    apply stable_do_swap_ok in X; [|exact Ns]. destruct X as [p0 [am [sp [cm [ny [w1 [w2 [w3 E]]]]]]]].
    destruct E as [Ep _ _ Am _ SN Ca Emi Emf Ems [qq [Eq Lq]] Mi Mo Mc _].
    rewrite Hp in Ep. inversion Ep; subst p0. clear Ep.
    assert (am1 = am) by congruence. subst am1.
    assert (E3 : ss_spread q = sp /\ ss_comm q = cm) by (split; congruence). destruct E3 as [Esp Ecm]. clear Ca1 Am1.
    exists q. split; [exact Sq|]. cbv zeta. rewrite Esp, Ecm, Aq.
    rewrite <- Ex, <- Ey, <- Eb in *.
    pose proof (StNums_range _ _ _ _ _ _ _ _ _ _ _ _ SN Ff) as [Rc Rr].
    pose proof (sm_spread _ _ _ _ _ _ _ _ _ _ _ _ SN) as Rs.
    pose proof (from_ratio_fits _ _ _ Eq) as Fq.
    assert (Pg : 0 < ret + cm).
    { destruct (Z.eq_dec (ret + cm) 0) as [E0|]; [|lia]. rewrite E0 in Eq. discriminate Eq. }
    rewrite from_ratio_runs in Eq by lia.
    assert (Eq' : qq = sp * 10^18 / (ret + cm)) by (change DEC with (10^18) in Eq; congruence).
    pose proof (mv_le _ _ _ _ _ _ Mi) as Lu. pose proof (mv_fit _ _ _ _ _ _ Mi) as F1.
    pose proof (mv_fit _ _ _ _ _ _ Mo) as F2. pose proof (mv_fit _ _ _ _ _ _ Mc) as F3.
    rewrite (mv_bal _ _ _ _ _ _ Mi) in F1.
    rewrite (mv_bal _ _ _ _ _ _ Mo), (mv_bal _ _ _ _ _ _ Mi) in F2.
    rewrite (mv_bal _ _ _ _ _ _ Mc), (mv_bal _ _ _ _ _ _ Mo), (mv_bal _ _ _ _ _ _ Mi) in F3.
    rewrite !Z.eqb_refl in *.
    destruct (Z.eqb_spec buy offer) as [|_]; [congruence|]. destruct (Z.eqb_spec u self) as [|_]; [congruence|].
    destruct (Z.eqb_spec self u) as [|_]; [congruence|]. cbn [andb] in *. unfold ind in *.
    split; [exact Sg|]. split; [exact Dl|]. split; [exact Emf|]. split; [exact Ems|].
    split; [exact Emi|].
    split; [lia|]. split; [lia|]. split; [exact Fq|].
    split.
    { rewrite <- Eq'. unfold limit, opt_or, dec_bps in *. destruct ms; lia. }
    split; [lia|]. split; [lia|]. intros Nf.
    destruct (Z.eqb_spec (l_feerec p) self) as [|_]; [congruence|]. unfold on. destruct (l_feerec p =? u); lia.
  - intros [q [Sq [Sg [Dl [Hmf [Hms [Hmi [La [Pg [Fs1 [Ls [F1 [F2 F3]]]]]]]]]]]]].
    destruct (stable_simulate_ok _ _ _ _ _ _ Sq) as [p1 [am [Ep1 [_ [P1 [P2 [P3 [Am Ca]]]]]]]].
    unfold stable_at in Hp. rewrite Hp in Ep1. inversion Ep1; subst p1. clear Ep1.
    destruct (stable_compute_swap_ok _ _ _ _ _ _ _ _ _ _ _ Ca) as [ny SN].
    pose proof (StNums_range _ _ _ _ _ _ _ _ _ _ _ _ SN Ff) as [Rc Rr].
    pose proof (sm_spread _ _ _ _ _ _ _ _ _ _ _ _ SN) as Rs. pose proof (sm_sum _ _ _ _ _ _ _ _ _ _ _ _ SN) as Rm.
    pose proof (sm_ny _ _ _ _ _ _ _ _ _ _ _ _ SN) as Rn.
    rewrite <- Ey in *. rewrite <- Ex in *.
    set (ret := ss_ask q) in *. set (fee := ss_comm q) in *. set (sp := ss_spread q) in *. set (gross := ret + fee) in *.
    assert (Nu : u <> self).
    { intros ->. rewrite signs_neg in Sg by lia. discriminate. }
    assert (Tof : is_tok w offer) by (apply (bal_is_tok w _ u); lia).
    assert (Tbu : is_tok w buy) by (apply (bal_is_tok w _ self); lia).
    unfold stable_swap.
    rewrite (run_bind _ _ _ tt w) by (apply run_enter; auto).
    rewrite (run_bind _ _ _ tt w) by (apply run_deadline; auto).
    rewrite (run_bind _ _ _ tt w) by (apply run_guard; unfold vpos; lia).
    rewrite (run_bind _ _ _ tt w) by (apply run_auth; unfold authed; rewrite Sg; auto).
    unfold stable_do_swap.
    rewrite (run_bind _ _ _ p w) by (apply run_get_stable; auto).
    rewrite (run_bind _ _ _ tt w).
    2:{ apply run_guard. destruct mf as [f|]; [|reflexivity]. specialize (Hmf f eq_refl). lia. }
    rewrite (run_bind _ _ _ tt w) by (apply run_guard; lia).
    rewrite (run_bind _ _ _ tt w).
    2:{ apply run_guard. destruct ms as [s|]; [|reflexivity]. specialize (Hms s eq_refl). lia. }
    cbv zeta.
    assert (E1 : (if offer =? l_ta p then (l_ra p, l_rb p) else (l_rb p, l_ra p)) = (x, y)).
    { rewrite Ex, Ey. unfold l_res, l_oth. destruct (offer =? l_ta p); reflexivity. }
    assert (E2 : (if offer =? l_ta p then (l_ta p, l_tb p) else (l_tb p, l_ta p)) = (offer, buy)).
    { rewrite Eb. unfold l_buy. destruct (Z.eqb_spec offer (l_ta p)); f_equal; lia. }
    assert (E3 : (if offer =? l_ta p then (l_preca p, l_precb p) else (l_precb p, l_preca p)) = (l_pof p offer, l_pot p offer)).
    { unfold l_pof, l_pot. destruct (offer =? l_ta p); reflexivity. }
    rewrite E1, E2, E3.
    rewrite (run_bind _ _ _ _ w) by apply run_now.
    rewrite (run_bind _ _ _ x w) by (apply run_lift, i2u_runs; lia).
    rewrite (run_bind _ _ _ y w) by (apply run_lift, i2u_runs; lia).
    rewrite (run_bind _ _ _ amt w) by (apply run_lift, i2u_runs; lia).
    rewrite (run_bind _ _ _ am w) by (apply run_lift; exact Am).
    rewrite (run_bind _ _ _ _ w) by (apply run_lift; exact Ca). cbv beta iota.
    rewrite (run_bind _ _ _ tt w).
    2:{ apply run_guard. destruct mi as [m|]; [|reflexivity]. specialize (Hmi m eq_refl). lia. }
    assert (Ab : forall k, k = self -> authed e (Some self) k = true).
    { intros k ->. unfold authed. rewrite Z.eqb_refl. apply orb_true_r. }
    rewrite (run_bind _ _ _ gross w).
    2:{ apply run_lift, chk_ok. unfold in_i128, I128_MIN. lia. }
    rewrite (run_bind _ _ _ tt w).
    2:{ apply run_lift. unfold assert_max_spread. rewrite from_ratio_runs by (unfold DEC; lia). unfold rbind. change DEC with (10^18).
        unfold guard. replace (negb _) with true; [reflexivity|].
        symmetry. apply negb_true_iff, Z.ltb_ge. etransitivity; [exact Ls|].
        unfold limit, dec_bps. destruct ms; lia. }
    rewrite (run_bind _ _ _ _ w) by (apply run_balance; auto).
    destruct (run_transfer e (Some self) offer u self amt w G) as [w1 [X1 M1]]; auto; try lia.
    { unfold authed. rewrite Sg. auto. }
    destruct (frame_good _ _ KStable _ _ _ _ (frame_transfer e (Some self) KStable _ _ _ _ ) X1 G Hc) as [G1 Hc1].
    rewrite (run_bind _ _ _ tt w1) by exact X1.
    assert (T1 : forall t, is_tok w t -> is_tok w1 t) by (intros t Ht; eapply is_tok_dec; [apply M1|auto]).
    rewrite (run_bind _ _ _ _ w1) by (apply run_balance; auto).
    assert (Ba : bal w1 offer self = bal w offer self + amt).
    { rewrite (mv_bal _ _ _ _ _ _ M1), !Z.eqb_refl. destruct (Z.eqb_spec self u); [congruence|]. unfold ind; cbn [andb]. lia. }
    rewrite (run_bind _ _ _ amt w1).
    2:{ apply run_lift. unfold sub_i. rewrite Ba. replace (_ - _) with amt by lia. apply chk_ok. unfold in_i128, I128_MIN. lia. }
    assert (B1 : forall k, bal w1 buy k = bal w buy k).
    { intros k. rewrite (mv_bal _ _ _ _ _ _ M1). destruct (Z.eqb_spec buy offer); [congruence|]. unfold ind; cbn [andb]. lia. }
    destruct (run_transfer e (Some self) buy self u ret w1 G1) as [w2 [X2 M2]]; auto; rewrite ?B1; try lia.
    destruct (frame_good _ _ KStable _ _ _ _ (frame_transfer e (Some self) KStable _ _ _ _ ) X2 G1 Hc1) as [G2 Hc2].
    rewrite (run_bind _ _ _ tt w2) by exact X2.
    assert (T2 : forall t, is_tok w t -> is_tok w2 t) by (intros t Ht; eapply is_tok_dec; [apply M2|auto]).
    assert (B2 : forall k, bal w2 buy k = bal w buy k - on (k =? self) ret + on (k =? u) ret).
    { intros k. rewrite (mv_bal _ _ _ _ _ _ M2), B1, Z.eqb_refl. reflexivity. }
    destruct (run_transfer e (Some self) buy self (l_feerec p) fee w2 G2) as [w3 [X3 M3]]; auto.
    { rewrite B2, Z.eqb_refl. destruct (Z.eqb_spec self u); [congruence|]. unfold on. lia. }
    { destruct (Z.eq_dec (l_feerec p) self) as [Ef|Nf]; [left; auto|right]. specialize (F3 Nf).
      rewrite B2. destruct (Z.eqb_spec (l_feerec p) self); [congruence|]. unfold on in *. lia. }
    rewrite (run_bind _ _ _ tt w3) by exact X3.
    rewrite (run_bind _ _ _ (x + amt) w3) by (apply run_lift, chk_ok; unfold in_i128, I128_MIN; lia).
    rewrite (run_bind _ _ _ (y - fee) w3) by (apply run_lift, chk_ok; unfold in_i128, I128_MIN; lia).
    rewrite (run_bind _ _ _ (y - fee - ret) w3) by (apply run_lift, chk_ok; unfold in_i128, I128_MIN; lia).
    eexists _, _. reflexivity.
Qed.
Print Assumptions C128_stable_swap_succeeds_iff.
