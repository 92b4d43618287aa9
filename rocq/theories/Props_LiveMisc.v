(** Exact conditions and effects of the remaining calls that move tokens: the trader's transfer and the
    vesting contract's burn (C149), and stable pool deposits (C150). *)
From Coq Require Import ZArith List Bool Lia.
From Coq Require Import ZifyBool.
From Verif Require Import Base FMap Decimal DecimalProofs Curve World Token TokenProofs Frame Stake Pool PoolProofs
  Stable StableProofs NewtonProofs Rewards Vest Factory Router System SysFrame SysInv SysPool SysStable SysSupply
  SysVest SysStake SysRewards Script Runs Props_Token Props_Pool Props_Stable Props_Vest Props_Stake Props_Router
  Props_Live Props_LiveTok Props_LiveStable Props_LiveVest Props_LiveRew.
Import ListNotations.
Open Scope Z_scope.

Lemma self_authed e a : authed e (Some a) a = true.
Proof. unfold authed. rewrite Z.eqb_refl. apply orb_true_r. Qed.

(** the two's-complement reading of an unsigned 128-bit number *)
Lemma wrap_range a x : 0 <= a <= U128_MAX -> x <= I128_MAX -> (0 <= wrap_i128 a <= x <-> a <= x).
Proof.
  intros R X. unfold wrap_i128. destruct (Z.leb_spec a I128_MAX); [lia|].
  unfold U128_MAX, I128_MAX in *. lia.
Qed.
Lemma wrap_small a x : 0 <= a -> a <= x -> x <= I128_MAX -> wrap_i128 a = a.
Proof. intros. unfold wrap_i128. destruct (Z.leb_spec a I128_MAX); lia. Qed.

(** ** C149 The trader's transfer and the vesting contract's burn *)
Section Misc.
Context (H : Addr -> Salt -> Addr) (w : World) (e : Env).
Hypothesis R : reachable H w.

(** the trader pays its output token unless the caller names another one *)
Theorem C149_trader_transfer self d u rcpt amt tok : fget self (w_trader w) = Some d ->
  let t := match tok with Some t => t | None => d_out d end in
  (exists w', exec e (CTraderTransfer self u rcpt amt tok) w = Ok (tt, w')) <->
  (u = d_admin d /\ signs e u = true /\ is_tok w t /\ 0 <= amt <= bal w t self /\
   (rcpt = self \/ bal w t rcpt + amt <= I128_MAX)).
Proof.
  intros Hd t. pose proof (reach_good _ _ R) as G. pose proof (gd_ctrader _ G _ _ Hd) as Hc. simpl exec. unfold trader_transfer.
  split.
  - intros [w' X]. rstep X. winv.
    match goal with Q : fget self (w_trader w) = Some ?y |- _ => assert (y = d) by congruence; subst y end.
    match goal with Q : tok_transfer _ _ _ _ _ _ _ = Ok _ |- _ => rename Q into X end.
    match type of X with tok_transfer _ _ ?m _ _ _ _ = _ => change m with t in X end. clearbody t.
    pose proof (transfer_is_tok _ _ _ _ _ _ _ _ _ X) as T. apply tok_transfer_moved in X. destruct X as [_ M].
    pose proof (mv_pos _ _ _ _ _ _ M). pose proof (mv_le _ _ _ _ _ _ M).
    pose proof (mv_fit _ _ _ _ _ _ M) as F. rewrite (mv_bal _ _ _ _ _ _ M), !Z.eqb_refl in F.
    split; [lia|]. split; [rewrite <- authed_none; auto|]. split; [exact T|]. split; [lia|].
    destruct (Z.eq_dec rcpt self); [auto|right]. destruct (Z.eqb_spec rcpt self); [congruence|]. unfold ind in F. cbn [andb] in F. lia.
  - intros [-> [Sg [T [L F]]]].
    rewrite (run_bind _ _ _ tt w) by (apply run_enter; auto).
    rewrite (run_bind _ _ _ tt w) by (apply run_auth; rewrite authed_none; auto).
    rewrite (run_bind _ _ _ d w) by (unfold get_trader, mget, mbind; simpl; rewrite Hd; reflexivity).
    rewrite (run_bind _ _ _ tt w) by (apply run_guard, Z.eqb_refl).
    destruct (run_transfer e (Some self) t self rcpt amt w G) as [w' [X _]]; auto.
    { apply self_authed. }
    { destruct F; auto. }
    exists w'. exact X.
Qed.

Theorem C149_trader_transfer_effect self d u rcpt amt tok w' : fget self (w_trader w) = Some d ->
  exec e (CTraderTransfer self u rcpt amt tok) w = Ok (tt, w') ->
  let t := match tok with Some t => t | None => d_out d end in
  w' = set_tok w (w_tok w') /\ (forall x, supply w' x = supply w x) /\
  (forall x a, bal w' x a = bal w x a - on ((x =? t) && (a =? self)) amt + on ((x =? t) && (a =? rcpt)) amt).
Proof.
  intros Hd X t. simpl exec in X. unfold trader_transfer in X. rstep X. winv.
  match goal with Q : fget self (w_trader w) = Some ?y |- _ => assert (y = d) by congruence; subst y end.
  match goal with Q : tok_transfer _ _ _ _ _ _ _ = Ok _ |- _ => apply tok_transfer_moved in Q; destruct Q as [_ M] end.
  split; [apply (mv_rest _ _ _ _ _ _ M)|]. split; [apply (mv_sup _ _ _ _ _ _ M)|]. apply (mv_bal _ _ _ _ _ _ M).
Qed.

(** burning from one's own wallet through the vesting contract: the contract's balance is not touched *)
Theorem C149_vest_burn self v u amt : vest_at w self v -> 0 <= amt <= U128_MAX ->
  (exists w', exec e (CVestBurn self u amt) w = Ok (tt, w')) <->
  (signs e u = true /\ 0 < amt <= bal w (v_token v) u).
Proof.
  intros Hv Ra. pose proof (reach_good _ _ R) as G. pose proof (gd_cvest _ G _ _ Hv) as Hc. unfold vest_at in Hv.
  pose proof (good_bal w (v_token v) u G) as Gb. simpl exec. unfold vest_burn.
  pose proof (wrap_range amt (bal w (v_token v) u) Ra ltac:(lia)) as Wr.
  split.
  - intros [w' X]. rstep X. winv.
    match goal with Q : fget self (w_vest w) = Some ?y |- _ => assert (y = v) by congruence; subst y end.
    match goal with Q : tok_burn _ _ _ _ _ _ = Ok _ |- _ => apply tok_burn_ok in Q; destruct Q as [_ [P [k [U L]]]] end.
    rewrite <- (bal_get (v_token v) k w) in L by (apply (proj1 U)).
    split; [rewrite <- authed_none; auto|]. lia.
  - intros [Sg L].
    rewrite (run_bind _ _ _ tt w) by (apply run_enter; auto).
    rewrite (run_bind _ _ _ tt w) by (apply run_auth; rewrite authed_none; auto).
    rewrite (run_bind _ _ _ tt w) by (apply run_guard; lia).
    rewrite (run_bind _ _ _ v w) by (apply run_get_vest; auto).
    destruct (run_burn e (Some self) (v_token v) u (wrap_i128 amt) w G) as [w' [X _]]; try lia; eauto.
    { unfold authed. rewrite Sg. reflexivity. }
    { apply (bal_is_tok w _ u). lia. }
Qed.

Theorem C149_vest_burn_effect self v u amt w' : vest_at w self v -> 0 <= amt <= U128_MAX ->
  exec e (CVestBurn self u amt) w = Ok (tt, w') ->
  w' = set_tok w (w_tok w') /\ (forall x, supply w' x = supply w x - on (x =? v_token v) amt) /\
  (forall x a, bal w' x a = bal w x a - on ((x =? v_token v) && (a =? u)) amt).
Proof.
  intros Hv Ra X. assert (C : exists w', exec e (CVestBurn self u amt) w = Ok (tt, w')) by eauto.
  apply (C149_vest_burn _ v) in C; auto. destruct C as [Sg L].
  pose proof (good_bal w (v_token v) u (reach_good _ _ R)) as Gb. unfold vest_at in Hv.
  simpl exec in X. unfold vest_burn in X. rstep X. winv.
  match goal with Q : fget self (w_vest w) = Some ?y |- _ => assert (y = v) by congruence; subst y end.
  match goal with Q : tok_burn _ _ _ _ _ _ = Ok _ |- _ => apply tok_burn_burned in Q; destruct Q as [_ B] end.
  rewrite (wrap_small amt (bal w (v_token v) u)) in B by lia.
  split; [apply (bn_rest _ _ _ _ _ B)|]. split; [apply (bn_sup _ _ _ _ _ B)|]. apply (bn_bal _ _ _ _ _ B).
Qed.
End Misc.
Print Assumptions C149_trader_transfer.
Print Assumptions C149_trader_transfer_effect.
Print Assumptions C149_vest_burn.
Print Assumptions C149_vest_burn_effect.

(** ** C150 Stable pool deposits: exactly when they succeed *)
Lemma run_stable_mint_shares e self p to amt w : Good w -> fget self (w_stable w) = Some p ->
  tadmin w (l_share p) = Some self -> 0 <= amt -> bal w (l_share p) to + amt <= I128_MAX ->
  0 <= l_total p -> l_total p + amt <= I128_MAX ->
  exists w', stable_mint_shares e self to amt w = Ok (tt, w').
Proof.
  intros G Hp T P B F1 F2. unfold stable_mint_shares. rewrite (run_bind _ _ _ p w) by (apply run_get_stable; auto).
  destruct (run_mint e (Some self) (l_share p) to amt w self G) as [w1 [X1 M1]]; auto.
  { apply self_authed. }
  rewrite (run_bind _ _ _ tt w1) by exact X1.
  rewrite (run_bind _ _ _ (l_total p + amt) w1).
  2:{ apply run_lift. unfold add_i. apply chk_ok. unfold in_i128, I128_MIN. lia. }
  eexists. reflexivity.
Qed.

(** the shares a pool mints when a deposit takes the invariant value to [D1] *)
Definition stable_mints (p : Stable) (D1 m : Z) : Prop :=
  (l_total p = 0 -> m = D1 / 10 ^ (18 - l_prec p) - 1000 /\ 1 <= m) /\
  (l_total p <> 0 -> exists D0, value_D p (l_ra p) (l_rb p) D0 /\ 0 < D0 <= D1 /\
     let ratio := (D1 - D0) * 10^18 / D0 in
     D0 <= I128_MAX /\ (D1 - D0) * 10^18 <= I128_MAX /\ l_total p * ratio <= I128_MAX /\
     m = l_total p * ratio / 10^18).

Lemma pow10_runs n : 0 <= n <= 18 -> pow10_u n = Ok (10 ^ n).
Proof.
  intros N. unfold pow10_u. destruct (Z.ltb_spec n 0); [lia|]. apply chk_ok.
  assert (10 ^ n <= 10 ^ 18) by (apply Z.pow_le_mono_r; lia). assert (0 < 10 ^ n) by (apply Z.pow_pos_nonneg; lia).
  unfold in_u128, U128_MAX. lia.
Qed.
Lemma scale_runs x d : 0 <= d <= 18 -> 0 <= scaled x d <= U128_MAX -> scale_value x d DECIMAL_PRECISION = Ok (scaled x d).
Proof.
  intros Hd F. unfold scale_value, scaled, DECIMAL_PRECISION in *. destruct (Z.ltb_spec d 18).
  - rewrite pow10_runs by lia. unfold rbind. apply chk_ok. unfold in_u128. lia.
  - rewrite pow10_runs by lia. unfold rbind, div_u. replace (d - 18) with 0 by lia. replace (18 - d) with 0 by lia.
    rewrite Z.pow_0_r. cbn [Z.eqb]. rewrite Z.div_1_r. f_equal. lia.
Qed.
Lemma compute_d_args amp a b D : compute_d amp a b = Ok D -> a <= U128_MAX /\ b <= U128_MAX.
Proof. unfold compute_d. intros X. rstep X. unfold N_COINS, U128_MAX in *. lia. Qed.

(** the code's scaled computation is [value_D] *)
Lemma invariant_iff p a b D : 0 <= a -> 0 <= b -> 0 <= l_preca p <= 18 -> 0 <= l_precb p <= 18 ->
  invariant_of (l_namp p) a b (l_preca p) (l_precb p) = Ok D <-> value_D p a b D.
Proof.
  intros Pa Pb Da Db. pose proof (scaled_nonneg a (l_preca p) Pa). pose proof (scaled_nonneg b (l_precb p) Pb).
  unfold invariant_of, value_D. split.
  - intros Q. apply rbind_ok in Q. destruct Q as [sa [Qa Q]].
    apply rbind_ok in Q. destruct Q as [sb [Qb Q]]. apply scale_ok in Qa; auto. apply scale_ok in Qb; auto.
    subst sa sb. exact Q.
  - intros Q. pose proof (compute_d_args _ _ _ _ Q). rewrite !scale_runs by lia. exact Q.
Qed.
Lemma value_D_range p a b D : 0 <= a -> 0 <= b -> value_D p a b D -> 0 <= D <= U128_MAX.
Proof.
  intros Pa Pb Q. apply compute_d_ok in Q; try (apply scaled_nonneg; auto).
  destruct Q as [[_ [_ ->]]|[A [B [_ [_ [L [[J _] _]]]]]]]; [unfold U128_MAX; lia|]. unfold U128_MAX. lia.
Qed.

Lemma shares_iff p D1 m : 0 <= l_ra p -> 0 <= l_rb p -> 0 <= l_preca p <= 18 -> 0 <= l_precb p <= 18 ->
  l_prec p = Z.max (l_preca p) (l_precb p) -> 0 <= l_total p -> 0 <= D1 <= U128_MAX ->
  stable_shares p (l_namp p) D1 (l_preca p) (l_precb p) = Ok m <-> stable_mints p D1 m.
Proof.
  intros Ra Rb Da Db Pr T L. unfold stable_shares, stable_mints. destruct (Z.eqb_spec (l_total p) 0) as [Z0|Z0].
  - unfold DECIMAL_PRECISION. rewrite pow10_runs by lia.
    assert (P10 : 0 < 10 ^ (18 - l_prec p)) by (apply Z.pow_pos_nonneg; lia). revert P10.
    generalize (10 ^ (18 - l_prec p)) as f. intros f P10.
    unfold w2u. destruct (Z.leb_spec D1 U128_MAX); [|lia]. unfold rbind, div_u. destruct (Z.eqb_spec f 0); [lia|].
    assert (0 <= D1 / f <= D1) by (split; [apply Z.div_pos; lia|apply Z.div_le_upper_bound; nia]).
    unfold sub_u, chk, in_u128, guard, MINIMUM_LIQUIDITY_AMOUNT.
    destruct ((0 <=? D1 / f - 1000) && (D1 / f - 1000 <=? U128_MAX)) eqn:Q.
    + destruct (Z.eqb_spec (D1 / f - 1000) 0) as [Ez|Ez]; cbn [negb].
      * split; [discriminate|]. intros [S1 _]. specialize (S1 Z0). lia.
      * split.
        -- intros X. inversion X; subst m. split; [lia|]. congruence.
        -- intros [S1 _]. destruct (S1 Z0) as [-> _]. reflexivity.
    + split; [discriminate|]. intros [S1 _]. specialize (S1 Z0). lia.
  - split.
    + intros X. rstep X. winv. split; [congruence|]. intros _.
      match goal with Q : invariant_of _ _ _ _ _ = Ok ?x |- _ => rename x into D0; apply invariant_iff in Q; auto; rename Q into V end.
      match goal with Q : w2u D0 = Ok ?x |- _ => apply w2u_ok in Q; subst x end.
      match goal with Q : w2u D1 = Ok ?x |- _ => apply w2u_ok in Q; subst x end.
      match goal with Q : dec_div _ _ = Ok ?x, Q1 : i_mul_dec _ _ = Ok ?y |- _ => rename x into rt; rename Q into Qr; rename Q1 into Qm end.
      unfold dec_div in Qr. pose proof (value_D_range _ _ _ _ Ra Rb V) as V0.
      assert (P0 : 0 < D0). { destruct (Z.eq_dec D0 0) as [E0|]; [|lia]. rewrite E0 in Qr. discriminate Qr. }
      assert (F1 := from_ratio_fits _ _ _ Qr). rewrite from_ratio_runs in Qr by lia. 
      change DEC with (10^18) in *. inversion Qr; subst rt.
      assert (Prt : 0 <= (D1 - D0) * 10^18 / D0) by (apply Z.div_pos; lia).
      assert (F2 := mul_dec_fits _ _ _ Qm). rewrite mul_dec_runs in Qm by lia. change DEC with (10^18) in *.
      exists D0. split; [exact V|]. split; [lia|]. cbv zeta. split; [lia|]. split; [lia|]. split; [lia|]. congruence.
    + intros [_ S2]. destruct (S2 Z0) as [D0 [V [L0 [F0 [F1 [F2 ->]]]]]]. unfold I128_MAX, U128_MAX in *.
      assert (Prt : 0 <= (D1 - D0) * 10^18 / D0) by (apply Z.div_pos; lia).
      rewrite !i2u_runs by auto. unfold rbind at 1 2.
      apply invariant_iff in V; auto. rewrite V. unfold rbind at 1.
      unfold w2u. destruct (Z.leb_spec D0 U128_MAX); [|unfold U128_MAX in *; lia]. unfold rbind at 1.
      destruct (Z.leb_spec D1 U128_MAX); [|unfold U128_MAX in *; lia]. unfold rbind at 1.
      unfold sub_u. rewrite chk_ok by (unfold in_u128, U128_MAX; lia). unfold rbind at 1. unfold u2i.
      destruct (Z.ltb_spec I128_MAX (D1 - D0)); [unfold I128_MAX in *; lia|]. unfold rbind at 1.
      destruct (Z.ltb_spec I128_MAX D0); [unfold I128_MAX in *; lia|]. unfold rbind at 1.
      unfold dec_div. rewrite from_ratio_runs by (unfold DEC, I128_MAX in *; lia). unfold rbind at 1.
      change DEC with (10^18). rewrite mul_dec_runs by (unfold I128_MAX; lia). unfold rbind at 1.
      rewrite i2u_runs; [reflexivity|]. apply Z.div_pos; [|unfold DEC; lia]. apply Z.mul_nonneg_nonneg; lia.
Qed.

Lemma run_decimals t d w : tdec w t = Some d -> tok_decimals t w = Ok (d, w).
Proof.
  unfold tdec, tok_decimals. destruct (fget t (w_tok w)) as [k|] eqn:E; [|discriminate]. intros X. inversion X; subst.
  rewrite (run_bind _ _ _ k w) by (apply run_get_tok; auto). reflexivity.
Qed.

Section StableDeposit.
Context (H : Addr -> Salt -> Addr) (w : World) (e : Env) (self : Addr) (p : Stable).
Hypothesis R : reachable H w.
Hypothesis Hp : stable_at w self p.
Variables (u da db : Z) (custom dl mins : option Z).

(** the conditions; [m] is the number of shares minted *)
Definition deposit_allowed (m : Z) : Prop :=
  signs e u = true /\ (forall d, dl = Some d -> w_now w <= d) /\
  (match custom with Some s => s | None => l_defslip p end) <= l_maxslip p /\
  0 < da <= bal w (l_ta p) u /\ 0 < db <= bal w (l_tb p) u /\
  bal w (l_ta p) self + da <= I128_MAX /\ bal w (l_tb p) self + db <= I128_MAX /\
  (exists D1, value_D p (l_ra p + da) (l_rb p + db) D1 /\ stable_mints p D1 m) /\
  (forall x, mins = Some x -> x <= m) /\ l_total p + m <= I128_MAX.

Theorem C150_stable_deposit_succeeds_iff :
  (exists w', exec e (CStableProvide self u da db custom dl mins) w = Ok (tt, w')) <-> (exists m, deposit_allowed m).
Proof.
  pose proof (reach_good _ _ R) as G. pose proof (gd_cstable _ G _ _ Hp) as Hc.
  pose proof (reach_stable _ _ R _ _ Hp) as I. pose proof (gd_pos _ G _ _ Hc) as Pself.
  pose proof (li_ord _ _ _ I) as Od. pose proof (li_sa _ _ _ I) as Sa. pose proof (li_sb _ _ _ I) as Sb.
  pose proof (li_ra _ _ _ I) as Ra. pose proof (li_rb _ _ _ I) as Rb. pose proof (li_tot _ _ _ I) as Tot.
  pose proof (li_sup _ _ _ I) as Su. pose proof (li_fit _ _ _ I) as Fit.
  destruct (li_dec _ _ _ I) as [D1 [D2 [D3 [D4 D5]]]].
  pose proof (amp_reached _ _ _ _ R Hp) as Am.
  simpl exec. split.
  - intros [w' X]. pose proof X as X0.
    assert (A : authed e None u = true) by (unfold stable_provide in X; rstep X; winv; auto).
    assert (Ns : u <> self) by (eapply (stable_sender H w e None self); [exact R|exact Hc|discriminate|exact A]).
    apply stable_provide_ok in X; auto.
    2:{ intros q Eq. unfold stable_at in Hp. rewrite Hp in Eq. inversion Eq; subst. lia. }
    destruct X as [Dl [_ [p0 [am [x [y [nd [s [w1 [w2 [w3 E]]]]]]]]]]].
    destruct E as [Ep _ [P1 P2] Ecu Emin Eamp Eda Edb End Esh E1 E2 Em Ee Ep'].
    unfold stable_at in Hp. assert (p0 = p) by congruence; subst p0.
    assert (am = l_namp p) by congruence. assert (x = l_preca p) by congruence. assert (y = l_precb p) by congruence. subst am x y.
    apply invariant_iff in End; auto; try lia. pose proof (value_D_range p (l_ra p + da) (l_rb p + db) nd ltac:(lia) ltac:(lia) End) as Rnd.
    apply shares_iff in Esh; auto; try lia.
    pose proof (stable_provide_fits _ _ _ _ _ _ _ _ _ _ _ _ _ X0 Ep') as F. cbn [l_total set_l_res set_l_total] in F.
    pose proof (mv_le _ _ _ _ _ _ E1) as L1. pose proof (mv_le _ _ _ _ _ _ E2) as L2.
    pose proof (mv_fit _ _ _ _ _ _ E1) as F1. pose proof (mv_fit _ _ _ _ _ _ E2) as F2.
    rewrite (mv_bal _ _ _ _ _ _ E2) in F2.
    rewrite !(mv_bal _ _ _ _ _ _ E1) in *. rewrite !Z.eqb_refl in *.
    destruct (Z.eqb_spec self u); [congruence|]. destruct (Z.eqb_spec (l_tb p) (l_ta p)); [lia|].
    unfold ind in *. cbn [andb] in *.
    exists s. split; [rewrite <- authed_none; exact A|]. split; [exact Dl|]. split; [exact Ecu|].
    split; [lia|]. split; [lia|]. split; [lia|]. split; [lia|]. split; [eauto|]. split; [exact Emin|exact F].
  - intros [m [Sg [Dl [Cu [La [Lb [Fa [Fb [[nd [End Esh]] [Mi Ft]]]]]]]]]].
    assert (Nu : u <> self). { intros ->. rewrite signs_neg in Sg by lia. discriminate. }
    assert (Tta : is_tok w (l_ta p)) by (apply (bal_is_tok w _ u); lia).
    assert (Ttb : is_tok w (l_tb p)) by (apply (bal_is_tok w _ u); lia).
    pose proof (value_D_range p (l_ra p + da) (l_rb p + db) nd ltac:(lia) ltac:(lia) End) as Rnd.
    apply invariant_iff in End; auto; try lia. apply shares_iff in Esh; auto; try lia.
    assert (Pm : 0 <= m <= I128_MAX).
    { split; [|lia]. revert Esh. unfold stable_shares. destruct (l_total p =? 0); intros Y; rstep Y; winv; lia. }
    unfold stable_provide.
    rewrite (run_bind _ _ _ tt w) by (apply run_enter; auto).
    rewrite (run_bind _ _ _ tt w) by (apply run_deadline; auto).
    rewrite (run_bind _ _ _ tt w) by (apply run_guard; unfold vpos; lia).
    rewrite (run_bind _ _ _ tt w) by (apply run_auth; unfold authed; rewrite Sg; auto).
    rewrite (run_bind _ _ _ p w) by (apply run_get_stable; auto).
    rewrite (run_bind _ _ _ tt w) by (apply run_guard; destruct custom; lia).
    rewrite (run_bind _ _ _ (w_now w) w) by reflexivity.
    rewrite (run_bind _ _ _ (l_namp p) w) by (apply run_lift, Am).
    rewrite (run_bind _ _ _ (l_preca p) w) by (apply run_decimals; auto).
    rewrite (run_bind _ _ _ (l_precb p) w) by (apply run_decimals; auto).
    rewrite (run_bind _ _ _ (bal w (l_ta p) self) w) by (apply run_balance; auto).
    rewrite (run_bind _ _ _ (bal w (l_tb p) self) w) by (apply run_balance; auto).
    destruct (run_transfer e (Some self) (l_ta p) u self da w G) as [w1 [X1 M1]]; auto; try lia.
    { unfold authed. rewrite Sg. auto. }
    destruct (frame_good _ _ KStable _ _ _ _ (frame_transfer e (Some self) KStable _ _ _ _ ) X1 G Hc) as [G1 Hc1].
    rewrite (run_bind _ _ _ tt w1) by exact X1.
    assert (B1 : forall x, bal w1 (l_tb p) x = bal w (l_tb p) x).
    { intros x. rewrite (mv_bal _ _ _ _ _ _ M1). destruct (Z.eqb_spec (l_tb p) (l_ta p)); [lia|]. unfold ind; cbn [andb]. lia. }
    destruct (run_transfer e (Some self) (l_tb p) u self db w1 G1) as [w2 [X2 M2]]; auto; try (rewrite B1; lia).
    { unfold authed. rewrite Sg. auto. }
    { eapply is_tok_dec; [apply M1|auto]. }
    destruct (frame_good _ _ KStable _ _ _ _ (frame_transfer e (Some self) KStable _ _ _ _ ) X2 G1 Hc1) as [G2 Hc2].
    rewrite (run_bind _ _ _ tt w2) by exact X2.
    assert (T2 : forall t, is_tok w t -> is_tok w2 t).
    { intros t Ht. eapply is_tok_dec; [apply M2|]. eapply is_tok_dec; [apply M1|auto]. }
    assert (Ba : bal w2 (l_ta p) self = bal w (l_ta p) self + da).
    { rewrite (mv_bal _ _ _ _ _ _ M2), (mv_bal _ _ _ _ _ _ M1), !Z.eqb_refl.
      destruct (Z.eqb_spec self u); [congruence|]. destruct (Z.eqb_spec (l_ta p) (l_tb p)); [lia|]. unfold ind; cbn [andb]. lia. }
    assert (Bb : bal w2 (l_tb p) self = bal w (l_tb p) self + db).
    { rewrite (mv_bal _ _ _ _ _ _ M2), B1, !Z.eqb_refl.
      destruct (Z.eqb_spec self u); [congruence|]. unfold ind; cbn [andb]. lia. }
    pose proof (good_bal w (l_ta p) self G) as Ga. pose proof (good_bal w (l_tb p) self G) as Gb.
    rewrite (run_bind _ _ _ (bal w2 (l_ta p) self) w2) by (apply run_balance; auto).
    rewrite (run_bind _ _ _ (bal w2 (l_tb p) self) w2) by (apply run_balance; auto).
    rewrite Ba, Bb.
    rewrite (run_bind _ _ _ da w2).
    2:{ apply run_lift. unfold sub_i. replace (bal w (l_ta p) self + da - bal w (l_ta p) self) with da by lia.
        apply chk_ok. unfold in_i128, I128_MIN. lia. }
    rewrite (run_bind _ _ _ db w2).
    2:{ apply run_lift. unfold sub_i. replace (bal w (l_tb p) self + db - bal w (l_tb p) self) with db by lia.
        apply chk_ok. unfold in_i128, I128_MIN. lia. }
    rewrite (run_bind _ _ _ (l_ra p + da) w2).
    2:{ apply run_lift. unfold add_i. rewrite Z.add_comm. apply chk_ok. unfold in_i128, I128_MIN. lia. }
    rewrite (run_bind _ _ _ (l_rb p + db) w2).
    2:{ apply run_lift. unfold add_i. rewrite Z.add_comm. apply chk_ok. unfold in_i128, I128_MIN. lia. }
    rewrite (run_bind _ _ _ (l_ra p + da) w2) by (apply run_lift, i2u_runs; lia).
    rewrite (run_bind _ _ _ (l_rb p + db) w2) by (apply run_lift, i2u_runs; lia).
    rewrite (run_bind _ _ _ nd w2) by (apply run_lift; exact End).
    rewrite (run_bind _ _ _ m w2) by (apply run_lift; exact Esh).
    rewrite (run_bind _ _ _ tt w2).
    2:{ apply run_guard. destruct mins as [x|]; [|reflexivity]. specialize (Mi x eq_refl). lia. }
    rewrite (run_bind _ _ _ (bal w2 (l_ta p) self) w2) by (apply run_balance; auto).
    rewrite (run_bind _ _ _ (bal w2 (l_tb p) self) w2) by (apply run_balance; auto).
    rewrite (run_bind _ _ _ m w2).
    2:{ apply run_lift. unfold u2i. destruct (Z.ltb_spec I128_MAX m); [lia|reflexivity]. }
    assert (Hp2 : fget self (w_stable w2) = Some p).
    { rewrite (mv_stable _ _ _ _ _ _ M2), (mv_stable _ _ _ _ _ _ M1). exact Hp. }
    assert (Bs : bal w2 (l_share p) u = bal w (l_share p) u).
    { rewrite (mv_bal _ _ _ _ _ _ M2), (mv_bal _ _ _ _ _ _ M1).
      destruct (Z.eqb_spec (l_share p) (l_ta p)); [lia|]. destruct (Z.eqb_spec (l_share p) (l_tb p)); [lia|]. unfold ind; cbn [andb]. lia. }
    pose proof (good_supply w (l_share p) u G) as Gs.
    destruct (run_stable_mint_shares e self p u m w2 G2 Hp2) as [w3 X3]; try lia.
    { rewrite (mv_adm _ _ _ _ _ _ M2), (mv_adm _ _ _ _ _ _ M1). apply (li_adm _ _ _ I). }
    rewrite (run_bind _ _ _ tt w3) by exact X3.
    apply stable_mint_shares_ok in X3. destruct X3 as [q3 [w3' [_ [_ [E3 _]]]]].
    rewrite (run_bind _ _ _ _ w3) by (apply run_get_stable; exact E3). eexists. reflexivity.
Qed.

(** the effect, with the world's other parts *)
Theorem C150_stable_deposit_effect w' : exec e (CStableProvide self u da db custom dl mins) w = Ok (tt, w') ->
  exists m, deposit_allowed m /\
  stable_at w' self (set_l_res (set_l_total p (l_total p + m)) (bal w (l_ta p) self + da) (bal w (l_tb p) self + db)) /\
  (forall c, c <> self -> fget c (w_stable w') = fget c (w_stable w)) /\
  w' = set_stable (set_tok w (w_tok w')) (w_stable w') /\
  (forall t, supply w' t = supply w t + on (t =? l_share p) m) /\
  (forall t x, bal w' t x = bal w t x
      - on ((t =? l_ta p) && (x =? u)) da + on ((t =? l_ta p) && (x =? self)) da
      - on ((t =? l_tb p) && (x =? u)) db + on ((t =? l_tb p) && (x =? self)) db
      + on ((t =? l_share p) && (x =? u)) m).
Proof.
  intros X. pose proof (reach_good _ _ R) as G. pose proof (reach_stable _ _ R _ _ Hp) as I.
  pose proof (li_ord _ _ _ I) as Od. pose proof (gd_cstable _ G _ _ Hp) as Hc.
  assert (C : exists w', exec e (CStableProvide self u da db custom dl mins) w = Ok (tt, w')) by eauto.
  apply C150_stable_deposit_succeeds_iff in C. destruct C as [m A].
  assert (Ns : u <> self).
  { destruct A as [Sg _]. pose proof (gd_pos _ G _ _ Hc) as Ps. intros ->. rewrite signs_neg in Sg by lia. discriminate. }
  exists m. split; [exact A|]. destruct A as [_ [_ [_ [Pa [Pb [_ [_ [[D1 [V Sh]] _]]]]]]]].
  destruct (li_dec _ _ _ I) as [Q1 [Q2 [Q3 [Q4 Q5]]]]. pose proof (amp_reached _ _ _ _ R Hp) as Am.
  pose proof (li_ra _ _ _ I) as Ra. pose proof (li_rb _ _ _ I) as Rb. pose proof (li_tot _ _ _ I) as Tot.
  pose proof (value_D_range p (l_ra p + da) (l_rb p + db) D1 ltac:(lia) ltac:(lia) V) as RD.
  apply shares_iff in Sh; auto; try lia. apply invariant_iff in V; auto; try lia.
  simpl exec in X. unfold stable_at in *.
  unfold stable_provide in X. rstep X. winv.
  match goal with Q : fget self (w_stable w) = Some ?y |- _ => assert (y = p) by congruence; subst y end.
  tinv. winv.
  match goal with Q : Moved (l_ta p) _ _ _ w ?a, Q' : Moved (l_tb p) _ _ _ ?a ?b |- _ => rename Q into M1; rename Q' into M2; rename a into w1; rename b into w2 end.
  match goal with Q : amp_of p _ = Ok ?x |- _ => assert (x = l_namp p) by congruence; subst x end.
  match goal with Q : tdec w (l_ta p) = Some ?x |- _ => assert (x = l_preca p) by congruence; subst x end.
  match goal with Q : tdec w (l_tb p) = Some ?x |- _ => assert (x = l_precb p) by congruence; subst x end.
  assert (Ba : bal w2 (l_ta p) self = bal w (l_ta p) self + da).
  { rewrite (mv_bal _ _ _ _ _ _ M2), (mv_bal _ _ _ _ _ _ M1), !Z.eqb_refl.
    destruct (Z.eqb_spec self u); [congruence|]. destruct (Z.eqb_spec (l_ta p) (l_tb p)); [lia|]. unfold ind; cbn [andb]. lia. }
  assert (Bb : bal w2 (l_tb p) self = bal w (l_tb p) self + db).
  { rewrite (mv_bal _ _ _ _ _ _ M2), (mv_bal _ _ _ _ _ _ M1), !Z.eqb_refl.
    destruct (Z.eqb_spec self u); [congruence|]. destruct (Z.eqb_spec (l_tb p) (l_ta p)); [lia|]. unfold ind; cbn [andb]. lia. }
  rewrite Ba, Bb in *.
  match goal with Q : invariant_of _ ?x ?y _ _ = Ok ?d |- _ =>
    replace x with (l_ra p + da) in Q by lia; replace y with (l_rb p + db) in Q by lia; assert (d = D1) by congruence; subst d end.
  match goal with Q : stable_shares _ _ _ _ _ = Ok ?x |- _ => assert (x = m) by congruence; subst x end.
  match goal with Q : stable_mint_shares _ _ _ _ _ = Ok _ |- _ => rename Q into Xm end.
  assert (Hp2 : fget self (w_stable w2) = Some p).
  { rewrite (mv_stable _ _ _ _ _ _ M2), (mv_stable _ _ _ _ _ _ M1). exact Hp. }
  unfold stable_mint_shares in Xm. rstep Xm. winv. tinv. winv.
  match goal with Q : fget self (w_stable w2) = Some ?y |- _ => assert (y = p) by congruence; subst y end.
  match goal with Q : Minted _ _ _ w2 ?x |- _ => rename Q into Mt; rename x into w3 end.
  match goal with Q : fget self (w_stable (set_stable _ _)) = Some ?y |- _ => simpl in Q; rewrite fget_set_same in Q; inversion Q; subst y end.
  assert (E3 : w_stable w3 = w_stable w).
  { rewrite (mt_rest _ _ _ _ _ Mt). simpl. rewrite (mv_stable _ _ _ _ _ _ M2), (mv_stable _ _ _ _ _ _ M1). reflexivity. }
  split; [simpl; apply fget_set_same|]. split; [intros c Nc; simpl; rewrite !fget_set_other, E3 by auto; reflexivity|].
  split.
  { simpl. rewrite (mt_rest _ _ _ _ _ Mt), (mv_rest _ _ _ _ _ _ M2), (mv_rest _ _ _ _ _ _ M1). reflexivity. }
  split.
  - intros t. change (supply (set_stable _ _) t) with (supply w3 t).
    rewrite (mt_sup _ _ _ _ _ Mt), (mv_sup _ _ _ _ _ _ M2), (mv_sup _ _ _ _ _ _ M1). reflexivity.
  - intros t a. change (bal (set_stable _ _) t a) with (bal w3 t a).
    rewrite (mt_bal _ _ _ _ _ Mt), (mv_bal _ _ _ _ _ _ M2), (mv_bal _ _ _ _ _ _ M1). unfold on, ind. lia.
Qed.
End StableDeposit.
Print Assumptions C150_stable_deposit_succeeds_iff.
Print Assumptions C150_stable_deposit_effect.
