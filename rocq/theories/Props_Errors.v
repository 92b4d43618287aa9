(** C239: the error codes of the constant-product pool tell what was wrong. *)
From Coq Require Import ZArith List Bool Lia.
From Coq Require Import ZifyBool.
From Verif Require Import Base FMap Decimal DecimalProofs Curve World Token TokenProofs Frame Stake Pool PoolProofs
  Stable StableProofs Rewards Vest Factory Router System SysFrame SysInv SysPool SysStable SysSupply Script ErrProofs
  Props_Token Props_Pool Props_PoolCases Props_Stable Props_StableCases.
Import ListNotations.
Open Scope Z_scope.

(** the ledger time is past the deadline *)
Definition late (w : World) (dl : option Z) : Prop := exists d, dl = Some d /\ d < w_now w.

(** passing one step of a failed call *)
Ltac rin := repeat match goal with R : _ = Ok _ |- _ => progress (rstep R) end; winv; destr_pair; repeat match goal with u : unit |- _ => destruct u end.
Ltac ew H := est H; rin.



Lemma fee_part g f : g * dec_bps f / DEC = g * f / 10000.
Proof.
  unfold dec_bps, DEC. change 1000000000000000000 with (10000 * 100000000000000). rewrite Z.mul_assoc.
  apply Z.div_mul_cancel_r; lia.
Qed.

Lemma w2i_err x n : w2i x = Err (EContract n) -> n = 23 /\ I128_MAX < x.
Proof. unfold w2i. destruct (Z.leb_spec x I128_MAX); intros E; inversion E; auto. Qed.

Lemma compute_swap_err x y dx rate n : 0 <= rate -> y <= I128_MAX -> compute_swap x y dx rate 0 = Err (EContract n) ->
  n = 23 /\ 0 < x /\ I128_MAX < dx * y / x - gross_out x y dx.
Proof.
  intros Pr Fy H. unfold compute_swap in H. unfold gross_out.
  do 18 ew H.
  change (dec_bps 0) with 0 in *. rewrite Z.mul_0_r in *. change (0 / DEC) with 0 in *. rewrite Z.sub_0_r in *.
  assert (Px : 0 < x) by lia.
  assert (G0 : 0 <= x * y / (x + dx)) by (apply Z.div_pos; [apply Z.mul_nonneg_nonneg; lia|lia]).
  remember (y - x * y / (x + dx)) as g.
  assert (Pg : 0 <= g) by lia.
  assert (Pc : 0 <= g * rate / DEC) by (apply Z.div_pos; [apply Z.mul_nonneg_nonneg; lia|reflexivity]).
  est H; [apply w2i_err in H; lia|]. est H; [apply w2i_err in H; destruct H as [-> H]; auto|].
  est H; [apply w2i_err in H; lia|]. est H; [apply w2i_err in H; unfold I128_MAX in H; lia|]. discriminate H.
Qed.

Lemma spread_err m t s n : 0 <= s -> assert_max_spread m t s = Err (EContract n) -> n = 1 /\ t <> 0 /\ (0 < t -> m * t < DEC * s).
Proof.
  intros Ps H. unfold assert_max_spread in H. est H. apply dec_from_ratio_ok in R. destruct R as [N [R1 R2]].
  est H. split; [reflexivity|]. split; [exact N|]. intros Pt.
  assert (Q : Z.quot (s * DEC) t = s * DEC / t) by (apply Z.quot_div_nonneg; [apply Z.mul_nonneg_nonneg; [lia|unfold DEC; lia]|lia]).
  assert (F : t * (s * DEC / t) <= s * DEC) by (apply Z.mul_div_le; lia).
  assert (m + 1 <= s * DEC / t) by lia.
  assert (t * (m + 1) <= t * (s * DEC / t)) by (apply Z.mul_le_mono_nonneg_l; lia). lia.
Qed.

(** ** C239: swaps *)
(** the reasons for the codes, whoever the swap comes from *)
Definition pool_swap_reason (w : World) (p : Pool) (offer amt : Z) (mi ms dl mf : option Z) (n : Z) : Prop :=
  (* TransactionAfterTimestampDeadline *) (n = 22 /\ late w dl) \/
  (* UserDeclinesPoolFee *) (n = 24 /\ exists f, mf = Some f /\ f < p_fee p) \/
  (* InvalidBps *) (n = 19 /\ exists s, ms = Some s /\ ~ 0 <= s <= p_maxspread p) \/
  (* AssetNotInPool *) (n = 16 /\ offer <> p_ta p /\ offer <> p_tb p) \/
  exists x y ask, side p offer x y ask /\ 0 < x /\ 0 < amt /\
    let g := y - x * y / (x + amt) in let k := g * p_fee p / 10000 in let sp := amt * y / x - g in
    (* CannotConvertU256ToI128 *) (n = 23 /\ I128_MAX < sp) \/
    (* SwapMinReceivedBiggerThanReturn *) (n = 21 /\ exists m, mi = Some m /\ g - k < m) \/
    (* SpreadExceedsLimit *) (n = 1 /\ 0 < g /\ opt_or ms (p_maxspread p) * g < 10000 * sp).
Lemma pool_swap_err w e c self u offer amt mi ms dl mf n p : Good w -> PoolInv w self p -> pool_at w self p ->
  pool_swap e c self u offer amt mi ms dl mf w = Err (EContract n) -> pool_swap_reason w p offer amt mi ms dl mf n.
Proof.
  intros G I Hp X. unfold pool_swap_reason.
  assert (Fp : 0 <= dec_bps (p_fee p)) by (unfold dec_bps; pose proof (pi_bps _ _ _ I); unfold vbps in *; lia).
  assert (Fa : p_ra p <= I128_MAX) by (pose proof (pi_ra _ _ _ I); pose proof (good_bal w (p_ta p) self G); lia).
  assert (Fb : p_rb p <= I128_MAX) by (pose proof (pi_rb _ _ _ I); pose proof (good_bal w (p_tb p) self G); lia).
  unfold pool_swap in X.
  ew X. ew X; [apply deadline_err in X; left; exact X|]. ew X. ew X. unfold do_swap in X.
  ew X. match goal with R : fget self (w_pool w) = Some ?q |- _ => unfold pool_at in Hp; rewrite Hp in R; inversion R; subst q; clear R end.
  right. ew X; [est X; left; split; [reflexivity|]; destruct mf as [f|]; [|discriminate]; exists f; split; [reflexivity|lia]|].
  right. ew X; [est X; left; split; [reflexivity|]; destruct ms as [s|]; [|discriminate]; exists s; split; [reflexivity|lia]|].
  right. cbv zeta in X. ew X; [est X; left; split; [reflexivity|]; lia|].
  right.
  assert (S : exists x y ask, side p offer x y ask /\ y <= I128_MAX /\ (if offer =? p_ta p then (p_ra p, p_rb p) else (p_rb p, p_ra p)) = (x, y)).
  { unfold side. destruct (Z.eqb_spec offer (p_ta p)) as [->|N]; [exists (p_ra p), (p_rb p), (p_tb p)|exists (p_rb p), (p_ra p), (p_ta p)];
    (split; [|split; [lia|reflexivity]]); [left; auto|]. right. assert (offer = p_tb p) by lia. auto. }
  destruct S as (x & y & ask & Sd & Fy & Se). rewrite Se in X. clear Se. exists x, y, ask. split; [exact Sd|]. cbv zeta.
  assert (Am : 0 < amt) by (unfold vpos in *; lia).
  rewrite <- !fee_part. change (y - x * y / (x + amt)) with (gross_out x y amt).
  ew X; [est X; apply compute_swap_err in X; [|exact Fp|exact Fy]; destruct X as (-> & Px & X); split; [exact Px|]; split; [exact Am|]; left; auto|].
  match goal with R : compute_swap _ _ _ _ _ = Ok ?q |- _ => apply compute_swap_ok in R; rename q into r; rename R into SN end.
  split; [apply SN|]. split; [exact Am|]. right.
  pose proof (sn_sum _ _ _ _ _ SN). rewrite <- (sn_comm _ _ _ _ _ SN). rewrite <- (sn_spread _ _ _ _ _ SN).
  ew X; [est X; left; split; [reflexivity|]; destruct mi as [m|]; [|discriminate]; exists m; split; [reflexivity|lia]|].
  right. ew X. ew X. rewrite (sn_ref _ _ _ _ _ SN), Z.add_0_r in X.
  ew X.
  - est X. apply spread_err in X; [|apply SN]. destruct X as (-> & N & X).
    assert (Pg : 0 < gross_out x y amt) by (pose proof (sn_ret _ _ _ _ _ SN); pose proof (sn_comm_pos _ _ _ _ _ SN); lia).
    split; [reflexivity|]. split; [exact Pg|]. specialize (X ltac:(lia)).
    unfold dec_bps, DEC, opt_or in *. destruct ms; lia.
  - exfalso. destruct (offer =? p_ta p); repeat (est X); unfold put_pool, mmod, mret in X; discriminate X.
Qed.
Theorem C239_swap_errors H w e self u offer amt mi ms dl mf n p : reachable H w -> pool_at w self p ->
  exec e (CPoolSwap self u offer amt mi ms dl mf) w = Err (EContract n) ->
  (* TransactionAfterTimestampDeadline *) (n = 22 /\ late w dl) \/
  (* UserDeclinesPoolFee *) (n = 24 /\ exists f, mf = Some f /\ f < p_fee p) \/
  (* InvalidBps *) (n = 19 /\ exists s, ms = Some s /\ ~ 0 <= s <= p_maxspread p) \/
  (* AssetNotInPool *) (n = 16 /\ offer <> p_ta p /\ offer <> p_tb p) \/
  exists x y ask, side p offer x y ask /\ 0 < x /\ 0 < amt /\
    let g := y - x * y / (x + amt) in let k := g * p_fee p / 10000 in let sp := amt * y / x - g in
    (* CannotConvertU256ToI128 *) (n = 23 /\ I128_MAX < sp) \/
    (* SwapMinReceivedBiggerThanReturn *) (n = 21 /\ exists m, mi = Some m /\ g - k < m) \/
    (* SpreadExceedsLimit *) (n = 1 /\ 0 < g /\ opt_or ms (p_maxspread p) * g < 10000 * sp).
Proof.
  intros Rc Hp X. unfold exec in X. apply drop_err in X.
  exact (pool_swap_err _ _ _ _ _ _ _ _ _ _ _ _ _ (reach_good _ _ Rc) (reach_pool _ _ Rc _ _ Hp) Hp X).
Qed.
Print Assumptions C239_swap_errors.

(** ** C239: deposits *)
Lemma dep_side_err d o rt ro mn slip cb cl n : 0 < d -> 0 < o -> 0 <= rt -> 0 <= ro -> (forall m, mn = Some m -> m <= d) ->
  dep_side d o rt ro mn slip cb cl = Err (EContract n) ->
  0 < ro /\ let a := o * rt / ro in (n = cb /\ d < a /\ slip * d < DEC * (a - d)) \/ (n = cl /\ exists m, mn = Some m /\ a < m).
Proof.
  intros Pd Po Pt Pr Hm H. unfold dep_side in H. ew H. ew H.
  match goal with N : ro <> 0 |- _ => pose proof N as Nr end.
  assert (Q : Z.quot (o * rt) ro = o * rt / ro) by (apply Z.quot_div_nonneg; [apply Z.mul_nonneg_nonneg; lia|lia]).
  rewrite Q in *. split; [lia|]. cbv zeta.
  ew H.
  - destruct (Z.ltb_spec d (o * rt / ro)) as [La|La]; [|discriminate H]. left.
    est H. match goal with E : dec_from_ratio _ _ = Ok _ |- _ => apply dec_from_ratio_ok in E; destruct E as (_ & _ & E) end.
    est H. match goal with E : dec_sub _ _ = Ok _ |- _ => unfold dec_sub in E; rstep E end. winv. subst.
    destruct (_ <=? slip) eqn:Es; [discriminate H|]. inversion H; subst. split; [reflexivity|]. split; [exact La|].
    assert (Q2 : Z.quot (o * rt / ro * DEC) d = o * rt / ro * DEC / d) by (apply Z.quot_div_nonneg; [apply Z.mul_nonneg_nonneg; unfold DEC; lia|lia]).
    remember (o * rt / ro) as a. unfold dec_one in Es.
    assert (F : d * (a * DEC / d) <= a * DEC) by (apply Z.mul_div_le; lia).
    assert (Z1 : slip + DEC + 1 <= a * DEC / d) by (unfold DEC in *; lia).
    assert (d * (slip + DEC + 1) <= d * (a * DEC / d)) by (apply Z.mul_le_mono_nonneg_l; lia). lia.
  - right. ew H; [|discriminate H]. est H. split; [reflexivity|].
    destruct mn as [m|]; [|discriminate]. exists m. split; [reflexivity|]. specialize (Hm m eq_refl).
    destruct (Z.ltb_spec d (o * rt / ro)).
    + rin. repeat match goal with R : context [if ?b then _ else _] |- _ => destruct b; try discriminate end; rin; lia.
    + rin. lia.
Qed.

Lemma share_total_err e self a b fa fb p w n : new_share_total e self a b fa fb p w = Err (EContract n) ->
  n = 13 /\ ~ (0 < p_ra p /\ 0 < p_rb p) /\ Z.sqrt (a * b) <= MINIMUM_LIQUIDITY_AMOUNT.
Proof.
  intros X. unfold new_share_total in X. destruct ((0 <? p_ra p) && (0 <? p_rb p)) eqn:Eb.
  - do 4 est X. discriminate X.
  - ew X. ew X. cbv zeta in X. ew X; [est X; split; [reflexivity|]; split; lia|]. est X. est X. noq X.
Qed.

Theorem C239_deposit_errors H w e self u da ma db mb sl dl n p : reachable H w -> pool_at w self p ->
  exec e (CPoolProvide self u da ma db mb sl dl) w = Err (EContract n) ->
  (* TransactionAfterTimestampDeadline *) (n = 22 /\ late w dl) \/
  (* ProvideLiquiditySlippageToleranceTooHigh *) (n = 2 /\ exists s, sl = Some s /\ p_maxslip p < s) \/
  (* ProvideLiquidityAtLeastOneTokenMustBeBiggerThenZero *) (n = 3 /\ (da = None \/ db = None)) \/
  exists x y, da = Some x /\ db = Some y /\ 0 < x /\ 0 < y /\
    ((* TotalSharesEqualZero *) (n = 13 /\ p_total p = 0 /\ x * y < 1001 * 1001) \/
     (* GetDepositAmountsMinABiggerThenDesiredA *) (n = 7 /\ p_total p <> 0 /\ exists m, ma = Some m /\ x < m) \/
     (* GetDepositAmountsMinBBiggerThenDesiredB *) (n = 8 /\ p_total p <> 0 /\ exists m, mb = Some m /\ y < m) \/
     p_total p <> 0 /\ 0 < p_rb p /\ (let a := y * p_ra p / p_rb p in
       (* GetDepositAmountsAmountABiggerThenDesiredA *) (n = 9 /\ x < a /\ opt_or sl (p_defslip p) * x < 10000 * (a - x)) \/
       (* GetDepositAmountsAmountALessThenMinA *) (n = 10 /\ exists m, ma = Some m /\ a < m)) \/
     p_total p <> 0 /\ 0 < p_ra p /\ (let b := x * p_rb p / p_ra p in
       (* GetDepositAmountsAmountBBiggerThenDesiredB *) (n = 11 /\ y < b /\ opt_or sl (p_defslip p) * y < 10000 * (b - y)) \/
       (* GetDepositAmountsAmountBLessThenMinB *) (n = 12 /\ exists m, mb = Some m /\ b < m))).
Proof.
  intros Rc Hp X. pose proof (reach_pool _ _ Rc _ _ Hp) as I.
  pose proof (pi_ra _ _ _ I) as Ra. pose proof (pi_rb _ _ _ I) as Rb.
  unfold exec in X. unfold pool_provide in X.
  ew X. ew X; [apply deadline_err in X; left; exact X|]. ew X. ew X.
  ew X. match goal with R : fget self (w_pool w) = Some ?q |- _ => unfold pool_at in Hp; rewrite Hp in R; inversion R; subst q; clear R end.
  right. ew X; [est X; left; split; [reflexivity|]; destruct sl as [s|]; [|discriminate]; exists s; split; [reflexivity|lia]|].
  right. apply mbind_err in X. destruct X as [X|(ab & w1 & Rq & X)].
  - apply mlift_err in X. destruct da as [x|]; [|left; inversion X; auto]. destruct db as [y|]; [|left; inversion X; auto].
    unfold vpos in *. destruct ((0 <? x) && (0 <? y)) eqn:Ep; [|exfalso; lia].
    right. exists x, y. split; [reflexivity|]. split; [reflexivity|]. split; [lia|]. split; [lia|].
    change (match sl with Some s => s | None => p_defslip p end) with (opt_or sl (p_defslip p)) in X.
    unfold deposit_amounts in X. ew X; [exfalso; est X; lia|]. ew X; [exfalso; est X; destruct ma, mb; lia|].
    destruct ((p_ra p =? 0) && (p_rb p =? 0)) eqn:Ez; [discriminate X|].
    assert (Nt : p_total p <> 0) by (intro Z0; pose proof (pi_zero _ _ _ I Z0); lia).
    right. ew X; [est X; left; split; [reflexivity|]; split; [exact Nt|]; destruct ma as [m|]; [|discriminate]; exists m; split; [reflexivity|lia]|].
    right. ew X; [est X; left; split; [reflexivity|]; split; [exact Nt|]; destruct mb as [m|]; [|discriminate]; exists m; split; [reflexivity|lia]|].
    right. est X.
    + left. apply dep_side_err in X; try lia. 2: { intros m ->. lia. }
      destruct X as (Pb & X). split; [exact Nt|]. split; [exact Pb|]. cbv zeta in X |- *. unfold dec_bps, DEC in X.
      destruct X as [(-> & L & X)|X]; [left|right; exact X]. split; [reflexivity|]. split; [exact L|]. lia.
    + est X; [|discriminate X]. right. apply dep_side_err in X; try lia. 2: { intros m ->. lia. }
      destruct X as (Pa & X). split; [exact Nt|]. split; [exact Pa|]. cbv zeta in X |- *. unfold dec_bps, DEC in X.
      destruct X as [(-> & L & X)|X]; [left|right; exact X]. split; [reflexivity|]. split; [exact L|]. lia.
  - right. rstep Rq. winv. destruct da as [xx|]; [|discriminate]. destruct db as [yy|]; [|discriminate].
    unfold vpos in *. destruct ((0 <? xx) && (0 <? yy)) eqn:Ep; [|discriminate].
    exists xx, yy. split; [reflexivity|]. split; [reflexivity|]. split; [lia|]. split; [lia|]. left.
    match goal with q : (Z * Z)%type |- _ => destruct q as [a b] end. cbv beta iota in X.
    do 8 est X. est X; [|do 3 est X; discriminate X].
    apply share_total_err in X. destruct X as (-> & Nb & Sq).
    match goal with E : deposit_amounts _ _ _ _ _ _ _ = Ok _ |- _ => rename E into D end.
    assert (Z0 : p_ra p = 0 /\ p_rb p = 0 /\ a = xx /\ b = yy).
    { unfold deposit_amounts in D. apply rbind_ok in D. destruct D as [? [_ D]]. apply rbind_ok in D. destruct D as [? [_ D]]. destruct ((p_ra p =? 0) && (p_rb p =? 0)) eqn:Ez.
      - inversion D; subst. lia.
      - exfalso. unfold dep_side in D. rin. lia. }
    destruct Z0 as (Z1 & Z2 & -> & ->). split; [reflexivity|]. split.
    + destruct (Z.eq_dec (p_total p) 0) as [|N]; [assumption|]. pose proof (pi_some _ _ _ I N). lia.
    + destruct (Z_lt_le_dec (xx * yy) (1001 * 1001)) as [|L]; [assumption|].
      apply Z.sqrt_le_mono in L. change (Z.sqrt (1001 * 1001)) with 1001 in L. unfold MINIMUM_LIQUIDITY_AMOUNT in Sq. lia.
Qed.
Print Assumptions C239_deposit_errors.

(** ** C239: withdrawals *)
Lemma q_withdraw_part r t : 0 <= r -> 0 <= t -> forall a, i_mul_dec r t = Ok a -> a = r * t / DEC.
Proof.
  intros Pr Pt a E. unfold i_mul_dec in E. destruct ((r =? 0) || (t =? 0)) eqn:Z0.
  - inversion E. replace (r * t) with 0; [reflexivity|]. assert (r = 0 \/ t = 0) as [->| ->] by lia; ring.
  - rstep E. rin. apply Z.quot_div_nonneg; [apply Z.mul_nonneg_nonneg; lia|reflexivity].
Qed.

Theorem C239_withdraw_errors H w e self u share ma mb dl n p : reachable H w -> pool_at w self p ->
  exec e (CPoolWithdraw self u share ma mb dl) w = Err (EContract n) ->
  (* TransactionAfterTimestampDeadline *) (n = 22 /\ late w dl) \/
  (* WithdrawLiquidityMinimumAmountOfAOrBIsNotSatisfied *)
  (n = 4 /\ 0 < share <= bal w (p_share p) u /\ 0 < p_total p /\
   let part r := r * (share * 10 ^ 18 / p_total p) / 10 ^ 18 in part (p_ra p) < ma \/ part (p_rb p) < mb).
Proof.
  intros Rc Hp X. pose proof (reach_pool _ _ Rc _ _ Hp) as I. pose proof (reach_good _ _ Rc) as G.
  pose proof (pi_ra _ _ _ I) as Ra. pose proof (pi_rb _ _ _ I) as Rb.
  unfold exec in X. apply drop_err in X. unfold pool_withdraw in X.
  ew X. ew X; [apply deadline_err in X; left; exact X|]. ew X. ew X.
  ew X. match goal with R : fget self (w_pool w) = Some ?q |- _ => unfold pool_at in Hp; rewrite Hp in R; inversion R; subst q; clear R end.
  right. est X. match goal with M : tok_transfer _ _ _ _ _ _ _ = Ok _ |- _ => rename M into Mv end.
  assert (T : share <= bal w (p_share p) u) by (tinv; match goal with M : Moved _ _ _ _ _ _ |- _ => apply M end).
  unfold vpos in *.
  assert (Pt : 0 < p_total p).
  { pose proof (pi_min _ _ _ I) as Pm. destruct (Z.eq_dec (p_total p) 0) as [E|]; [|lia]. exfalso.
    pose proof (good_supply w (p_share p) u G). pose proof (pi_sup _ _ _ I). lia. }
  est X; [est X; lia|].
  est X. match goal with E : mlift (dec_from_ratio _ _) _ = Ok (?x, _) |- _ => apply mlift_ok2 in E; destruct E as [Er ->]; rename x into r end.
  apply dec_from_ratio_ok in Er. destruct Er as (_ & _ & Er).
  rewrite Z.quot_div_nonneg in Er; [|apply Z.mul_nonneg_nonneg; [lia|unfold DEC; lia]|lia].
  assert (Pr : 0 <= r) by (rewrite Er; apply Z.div_pos; [apply Z.mul_nonneg_nonneg; [lia|unfold DEC; lia]|lia]).
  est X. match goal with E : mlift (i_mul_dec (p_ra p) _) _ = Ok (?x, _) |- _ => apply mlift_ok2 in E; destruct E as [Ea ->]; rename x into a end.
  apply q_withdraw_part in Ea; [|lia|lia].
  est X. match goal with E : mlift (i_mul_dec (p_rb p) _) _ = Ok (?x, _) |- _ => apply mlift_ok2 in E; destruct E as [Eb ->]; rename x into b end.
  apply q_withdraw_part in Eb; [|lia|lia].
  est X.
  - est X. split; [reflexivity|]. split; [lia|]. split; [exact Pt|]. cbv zeta. change (10 ^ 18) with DEC. lia.
  - exfalso. est X. est X. est X. est X. est X. est X. est X. discriminate X.
Qed.
Print Assumptions C239_withdraw_errors.

(** ** C239: the calls of the administrator report no code; setting a pool up reports four *)
Theorem C239_other_errors H w e n : reachable H w ->
  (forall self a f r s1 s2 s3, exec e (CPoolConfig self a f r s1 s2 s3) w <> Err (EContract n)) /\
  (forall self h, exec e (CPoolUpdate self h) w <> Err (EContract n)) /\
  (forall self h d, exec e (CPoolUpgrade self h d) w <> Err (EContract n)) /\
  (forall self i f d s m, exec e (CPoolInit self i f d s m) w = Err (EContract n) ->
    (* AlreadyInitialized *) (n = 17 /\ exists p, pool_at w self p) \/
    (* SwapFeeBpsOverLimit *) (n = 25 /\ m < i_fee i) \/
    (* TokenABiggerThanTokenB *) (n = 18 /\ i_tb i <= i_ta i) \/
    (* the stake contract's InvalidMinBond, InvalidMinReward and InvalidMaxComplexity *)
    (n = 2 /\ i_minbond i <= 0) \/ (n = 3 /\ i_minreward i <= 0) \/ (n = 12 /\ i_maxc i = 0)).
Proof.
  intros Rc. split; [|split; [|split]].
  - intros self a f r s1 s2 s3 X. unfold exec, pool_update_config in X. noq X.
  - intros self h X. unfold exec, pool_update in X. noq X.
  - intros self h d X. unfold exec, pool_upgrade in X. noq X.
  - intros self i f d s m X. unfold exec, pool_initialize in X.
    ew X. ew X. ew X; [est X; left; split; [reflexivity|]; unfold fmem, pool_at in *; destruct (fget self (w_pool _)) eqn:E; [eauto|discriminate]|].
    right. ew X. ew X; [est X; left; split; [reflexivity|lia]|].
    right. ew X; [est X; left; split; [reflexivity|lia]|].
    right. est X. est X; [|exfalso; noq X]. apply deploy_stake_err in X; [exact X|].
    match goal with D : deploy_share _ _ _ _ _ _ = Ok _ |- _ => apply (deploy_share_coded _ _ _ _ _ _ _ _ D) end.
    intros k q E. pose proof (gd_cstake _ (reach_good _ _ Rc) _ _ E). congruence.
Qed.
Print Assumptions C239_other_errors.
