(** C240: the error codes of the stable pool tell what was wrong; Newton's method is never among them. *)
From Coq Require Import ZArith List Bool Lia.
From Coq Require Import ZifyBool.
From Verif Require Import Base FMap Decimal DecimalProofs Curve World Token TokenProofs Frame Stake Pool PoolProofs
  Stable StableProofs NewtonProofs NewtonLive Rewards Vest Factory Router System SysFrame SysInv SysPool SysStable SysSupply Script Runs ErrProofs
  Props_Live Props_Token Props_Pool Props_PoolCases Props_Stable Props_StableCases Props_Errors.
Import ListNotations.
Open Scope Z_scope.

(** ** Newton's method reports nothing *)
Lemma rq_cube x : rquiet (cube_w x). Proof. unfold cube_w. qt. Qed.
Lemma rq_square x : rquiet (square_w x). Proof. unfold square_w. qt. Qed.
#[local] Hint Resolve rq_cube rq_square : quiet.
Lemma rq_d_loop0 f d lev sum : (0 < f)%nat -> rquiet (d_loop f d lev sum 0).
Proof. intros Pf. destruct f; [lia|]. intros n X. unfold d_loop in X; fold d_loop in X. est X. unfold div_w in X. simpl in X. discriminate X. Qed.

Lemma rq_compute_d amp a b : 0 <= a -> 0 <= b -> 100 <= amp -> rquiet (compute_d amp a b).
Proof.
  intros Pa Pb Am. assert (C : (0 < a /\ 0 < b) \/ a = 0 \/ b = 0) by lia. destruct C as [[La Lb]|Z0].
  - intros n X. destruct (compute_d_exact amp a b La Lb Am) as [E1 E2].
    assert (N : ~ d_fits amp a b) by (intro F; destruct (E1 F) as [D E]; congruence). rewrite (E2 N) in X. discriminate X.
  - intros n X. unfold compute_d in X. do 4 est X. destruct (_ =? 0); [discriminate X|]. est X.
    assert (x3 = 0). { unfold mul_u, chk in *. repeat match goal with R : (if ?b then _ else _) = Ok _ |- _ => destruct b; inversion R; clear R; subst end.
      destruct Z0 as [->| ->]; ring. }
    subst. assert (L : (0 < 64)%nat) by lia. exact (rq_d_loop0 _ _ _ _ L _ X).
Qed.

Lemma y_loop_00 f new n : (0 < f)%nat -> y_loop f 0 new 0 0 <> Err (EContract n).
Proof.
  intros Pf. destruct f; [lia|]. intros X. unfold y_loop in X; fold y_loop in X.
  ew X. do 4 est X.
  est X. rin. unfold square_w in *. rin. 

  unfold chk in R. change (in_u256 (0 ^ 2)) with true in R. inversion R; subst x.
  change (0 ^ 2 + 0) with 0 in X. rewrite Z.div_0_l in X by lia. discriminate X.
Qed.

Lemma compute_d_zero amp a b D : 0 <= a -> 0 <= b -> a = 0 \/ b = 0 -> compute_d amp a b = Ok D -> D = 0.
Proof.
  intros Pa Pb Z0 X. unfold compute_d in X.
  apply rbind_ok in X. destruct X as (l & _ & X). apply rbind_ok in X. destruct X as (a2 & A2 & X).
  apply rbind_ok in X. destruct X as (b2 & B2 & X). apply rbind_ok in X. destruct X as (s & _ & X).
  destruct (s =? 0); [inversion X; reflexivity|]. apply rbind_ok in X. destruct X as (q & Q & X).
  assert (q = 0). { unfold mul_u, chk in *. repeat match goal with R : (if ?b then _ else _) = Ok _ |- _ => destruct b; inversion R; clear R; subst end.
    destruct Z0 as [->| ->]; ring. }
  subst q. unfold d_loop in X; fold d_loop in X. apply rbind_ok in X. destruct X as (d3 & _ & X). unfold div_w in X. discriminate X.
Qed.

Lemma rq_calc_y amp new a b target : 0 <= a -> 0 <= b -> 100 <= amp -> 0 <= new -> 0 <= target -> rquiet (calc_y amp new a b target).
Proof.
  intros Pa Pb Am Pn Pt. assert (C : (0 < a /\ 0 < b) \/ a = 0 \/ b = 0) by lia.
  destruct (compute_d amp a b) as [D|x] eqn:HD.
  - destruct C as [[La Lb]|Z0].
    + intros n X. destruct (calc_y_exact amp new a b target D La Lb Am Pn Pt HD) as [E1 E2].
      assert (N : ~ y_fits amp new D target) by (intro F; destruct (E1 F) as [r E]; congruence). rewrite (E2 N) in X. discriminate X.
    + apply compute_d_zero in HD as E0; [|lia|lia|exact Z0]. subst D. intros n X. unfold calc_y in X. rewrite HD in X.
      rewrite rb_ok in X. do 3 est X. est X. unfold cube_w, chk in R2. change (in_u256 (0 ^ 3)) with true in R2. inversion R2; subst x2. clear R2.
      do 7 ew X. rin.
      change (Z.pow_pos 0 3 * (AMP_PRECISION * DEC)) with 0 in X. rewrite Z.div_0_l in X by assumption.
      assert (L : (0 < 64)%nat) by lia. est X; [exact (y_loop_00 _ _ _ L X)|]. noq X.
  - intros n X. unfold calc_y in X. rewrite HD in X. simpl in X. inversion X; subst. exact (rq_compute_d amp a b Pa Pb Am n HD).
Qed.

Lemma scale_nonneg x d t r : 0 <= x -> scale_value x d t = Ok r -> 0 <= r.
Proof.
  intros Px X. unfold scale_value in X. destruct (d <? t); apply rbind_ok in X; destruct X as (f & F & X).
  - unfold mul_u, chk in X. destruct (in_u128 _) eqn:E; inversion X; subst. unfold in_u128 in E. lia.
  - unfold div_u in X. destruct (f =? 0) eqn:E; inversion X; subst. unfold pow10_u, chk in F. 
    assert (0 <= f).
    { destruct (_ <? 0); [discriminate F|]. destruct (in_u128 _) eqn:G; inversion F. unfold in_u128 in G. lia. }
    apply Z.div_pos; lia.
Qed.

Lemma rq_invariant amp a b da db : 0 <= a -> 0 <= b -> 100 <= amp -> rquiet (invariant_of amp a b da db).
Proof.
  intros Pa Pb Am n X. unfold invariant_of in X. est X. est X. apply scale_nonneg in R; [|exact Pa]. apply scale_nonneg in R0; [|exact Pb].
  exact (rq_compute_d _ _ _ R R0 Am n X).
Qed.

Lemma amp_runs w self p t a : StableInv w self p -> w_now w <= t -> amp_of p t = Ok a -> a = l_namp p /\ 100 <= a.
Proof.
  intros I Lt X. destruct (li_amp _ _ _ I) as (E1 & E2 & E3). pose proof (li_ampt _ _ _ I). unfold amp_of, current_amp in X.
  destruct (Z.ltb_spec t (l_nampt p)); [lia|]. inversion X; subst. lia.
Qed.

(** ** C240: swaps.  [simulate_swap] is the pool's own quote. *)
Definition stable_swap_reason (w : World) (self : Addr) (p : Stable) (offer amt : Z) (mi ms dl mf : option Z) (n : Z) : Prop :=
  (* TransactionAfterTimestampDeadline *) (n = 19 /\ late w dl) \/
  (* UserDeclinesPoolFee *) (n = 23 /\ exists f, mf = Some f /\ f < l_fee p) \/
  (* IncorrectAssetSwap *) (n = 12 /\ offer <> l_ta p /\ offer <> l_tb p) \/
  (* InvalidBps *) (n = 9 /\ exists s, ms = Some s /\ ~ 0 <= s <= l_maxspread p) \/
  exists q, stable_simulate_swap self offer amt w = Ok (q, w) /\ 0 < amt /\
    ((* SwapMinReceivedBiggerThanReturn *) (n = 15 /\ exists m, mi = Some m /\ ss_ask q < m) \/
     (* SpreadExceedsLimit *) (n = 1 /\ 0 < ss_ask q + ss_comm q /\ 0 < ss_spread q /\
        opt_or ms (l_maxspread p) * (ss_ask q + ss_comm q) < 10000 * ss_spread q)).
Lemma stable_swap_err w e c self u offer amt mi ms dl mf n p : StableInv w self p -> stable_at w self p -> amt <= I128_MAX ->
  stable_swap e c self u offer amt mi ms dl mf w = Err (EContract n) -> stable_swap_reason w self p offer amt mi ms dl mf n.
Proof.
  intros I Hp Fm X. unfold stable_swap_reason. pose proof (li_ra _ _ _ I) as Ra. pose proof (li_rb _ _ _ I) as Rb.
  pose proof (li_bps _ _ _ I) as Bp. destruct (li_dec _ _ _ I) as (_ & _ & Dp & Da & Db).
  unfold stable_swap in X.
  ew X. ew X; [apply deadline_err in X; left; exact X|]. ew X. ew X. unfold stable_do_swap in X.
  ew X. match goal with R : fget self (w_stable w) = Some ?q |- _ => unfold stable_at in Hp; rewrite Hp in R; inversion R; subst q; clear R end.
  right. ew X; [est X; left; split; [reflexivity|]; destruct mf as [f|]; [|discriminate]; exists f; split; [reflexivity|lia]|].
  right. ew X; [est X; left; split; [reflexivity|]; lia|].
  right. ew X; [est X; left; split; [reflexivity|]; destruct ms as [s|]; [|discriminate]; exists s; split; [reflexivity|lia]|].
  right. cbv zeta in X.
  assert (Am : 0 < amt) by (unfold vpos in *; lia).
  assert (Prs : exists rs rb, (if offer =? l_ta p then (l_ra p, l_rb p) else (l_rb p, l_ra p)) = (rs, rb) /\ 0 <= rs /\ 0 <= rb).
  { destruct (offer =? l_ta p); eexists _, _; (split; [reflexivity|]); lia. }
  assert (Pps : exists ps pb, (if offer =? l_ta p then (l_preca p, l_precb p) else (l_precb p, l_preca p)) = (ps, pb) /\ 0 <= ps <= 18 /\ 0 <= pb <= 18).
  { destruct (offer =? l_ta p); eexists _, _; (split; [reflexivity|]); lia. }
  destruct Prs as (rs & rb & Ers & Pr & Pb). destruct Pps as (ps & pb & Eps & Qs & Qb). rewrite Ers, Eps in X.
  est X. match goal with E : now _ = Ok _ |- _ => unfold now, mgets in E; inversion E; subst; clear E end.
  est X. match goal with E : mlift _ _ = Ok _ |- _ => apply mlift_ok2 in E; destruct E as [U1 ->]; pose proof U1 as V1; apply i2u_ok in V1; destruct V1 as [-> _] end.
  est X. match goal with E : mlift _ _ = Ok _ |- _ => apply mlift_ok2 in E; destruct E as [U2 ->]; pose proof U2 as V2; apply i2u_ok in V2; destruct V2 as [-> _] end.
  est X. match goal with E : mlift _ _ = Ok _ |- _ => apply mlift_ok2 in E; destruct E as [U3 ->]; pose proof U3 as V3; apply i2u_ok in V3; destruct V3 as [-> _] end.
  est X. match goal with E : mlift _ _ = Ok _ |- _ => apply mlift_ok2 in E; destruct E as [U4 ->]; pose proof U4 as V4; eapply amp_runs in V4; [|exact I|lia]; destruct V4 as [V4 V5] end.
  est X.
  { exfalso. est X. unfold stable_compute_swap in X. est X. est X. est X. est X. est X; [|noq X].
    rin. repeat match goal with E : scale_value _ _ _ = Ok _ |- _ => apply scale_nonneg in E; [|lia] end.
    revert X. apply rq_calc_y; lia. }
  match goal with E : mlift _ _ = Ok _ |- _ => apply mlift_ok2 in E; destruct E as [U5 ->] end.
  match type of U5 with _ = Ok ?q => destruct q as [[ret spread] comm] end. cbv iota beta in X.
  pose proof U5 as SN. apply stable_compute_swap_ok in SN. destruct SN as [ny SN].
  assert (Hf : 0 <= dec_bps (l_fee p) <= DEC) by (unfold dec_bps, DEC, vbps in *; lia).
  pose proof (StNums_range _ _ _ _ _ _ _ _ _ _ _ _ SN Hf) as [Nc Nr]. pose proof (sm_sum _ _ _ _ _ _ _ _ _ _ _ _ SN) as Sm.
  pose proof (sm_fit _ _ _ _ _ _ _ _ _ _ _ _ SN) as Ft. pose proof (sm_spread _ _ _ _ _ _ _ _ _ _ _ _ SN) as Sp.
  pose proof (sm_ny _ _ _ _ _ _ _ _ _ _ _ _ SN) as Ny.
  exists (mkSimSwap ret comm spread (ret + comm + spread)). split.
  { unfold stable_simulate_swap. unfold mbind at 1. rewrite run_enter by assumption. unfold mbind at 1. rewrite (run_get_stable _ _ _ Hp).
    unfold mbind at 1. unfold mguard. rewrite G1. rewrite Ers, Eps. unfold now, mgets, mbind, mlift. rewrite U1, U2, U3, U4, U5.
    assert (A1 : add_i ret comm = Ok (ret + comm)) by (unfold add_i; apply chk_ok; unfold in_i128, I128_MIN, I128_MAX in *; lia).
    assert (A2 : add_i (ret + comm) spread = Ok (ret + comm + spread)) by (unfold add_i; apply chk_ok; unfold in_i128, I128_MIN, I128_MAX in *; lia).
    rewrite A1, A2. reflexivity. }
  split; [exact Am|]. cbn [ss_ask ss_comm ss_spread].
  ew X; [est X; left; split; [reflexivity|]; destruct mi as [m|]; [|discriminate]; exists m; split; [reflexivity|lia]|].
  right. est X. match goal with E : mlift (add_i _ _) _ = Ok _ |- _ => apply mlift_ok2 in E; destruct E as [E ->]; rstep E end. rin.
  est X.
  - est X. apply spread_err in X; [|lia]. destruct X as (-> & N & X). split; [reflexivity|]. specialize (X ltac:(lia)).
    split; [lia|]. assert (M0 : 0 <= opt_or ms (l_maxspread p)) by (unfold opt_or, vbps in *; destruct ms; lia).
    assert (M1 : 0 <= opt_or ms (l_maxspread p) * (ret + comm)) by (apply Z.mul_nonneg_nonneg; lia).
    change (match ms with Some s => s | None => l_maxspread p end) with (opt_or ms (l_maxspread p)) in X.
    unfold dec_bps, DEC in X. lia.
  - exfalso. destruct (offer =? l_ta p); repeat (est X); discriminate X.
Qed.
Theorem C240_swap_errors H w e self u offer amt mi ms dl mf n p : reachable H w -> stable_at w self p -> amt <= I128_MAX ->
  exec e (CStableSwap self u offer amt mi ms dl mf) w = Err (EContract n) ->
  (* TransactionAfterTimestampDeadline *) (n = 19 /\ late w dl) \/
  (* UserDeclinesPoolFee *) (n = 23 /\ exists f, mf = Some f /\ f < l_fee p) \/
  (* IncorrectAssetSwap *) (n = 12 /\ offer <> l_ta p /\ offer <> l_tb p) \/
  (* InvalidBps *) (n = 9 /\ exists s, ms = Some s /\ ~ 0 <= s <= l_maxspread p) \/
  exists q, stable_simulate_swap self offer amt w = Ok (q, w) /\ 0 < amt /\
    ((* SwapMinReceivedBiggerThanReturn *) (n = 15 /\ exists m, mi = Some m /\ ss_ask q < m) \/
     (* SpreadExceedsLimit *) (n = 1 /\ 0 < ss_ask q + ss_comm q /\ 0 < ss_spread q /\
        opt_or ms (l_maxspread p) * (ss_ask q + ss_comm q) < 10000 * ss_spread q)).
Proof.
  intros Rc Hp Fm X. unfold exec in X. apply drop_err in X.
  exact (stable_swap_err _ _ _ _ _ _ _ _ _ _ _ _ _ (reach_stable _ _ Rc _ _ Hp) Hp Fm X).
Qed.
Print Assumptions C240_swap_errors.

(** ** C240: deposits *)
Ltac both Y := let a := fresh "x" in let w1 := fresh "w" in let R := fresh "R" in
  apply mbind_ok in Y; destruct Y as (a & w1 & R & Y); cbv beta in Y; rewrite (run_bind _ _ _ _ _ R); cbv beta.

(** the minimum a depositor may ask for only decides whether the deposit goes through *)
Lemma stable_min_shares e c self u da db sl dl m w w' p : StableInv w self p -> fget self (w_stable w) = Some p ->
  stable_provide e c self u da db sl dl None w = Ok (tt, w') ->
  stable_provide e c self u da db sl dl (Some m) w =
    if bal w' (l_share p) u - bal w (l_share p) u <? m then Err (EContract 21) else Ok (tt, w').
Proof.
  intros I Hp Y. unfold stable_provide in *. both Y. both Y. both Y. both Y. both Y. both Y. both Y. both Y. both Y. both Y.
  both Y. both Y. both Y. both Y. both Y. both Y. both Y. both Y. both Y. both Y. both Y. both Y. both Y. both Y.
  apply mbind_ok in Y. destruct Y as (q & wq & Rq & Y). apply mguard_ok in Rq. destruct Rq as [_ Rq]. inversion Rq; subst q wq. clear Rq.
  match type of Y with context [u2i ?s] => assert (S : bal w' (l_share p) u - bal w (l_share p) u = s) end.
  { rstep Y. rin. tinv. rin.
    assert (x3 = p) by congruence. subst x3. pose proof (li_sa _ _ _ I). pose proof (li_sb _ _ _ I).
    match goal with M : stable_mint_shares _ _ _ _ _ = Ok _ |- _ => apply stable_mint_shares_ok in M; destruct M as (q & w5 & Q1 & Q2 & _ & Q4 & _) end.
    assert (q = p).
    { repeat match goal with M : Moved _ _ _ _ _ _ |- _ => pose proof (f_equal w_stable (mv_rest _ _ _ _ _ _ M)); revert M end. intros.
      simpl in *. congruence. }
    subst q. unfold bal at 1. simpl. rewrite Q4. fold (bal w5 (l_share p) u). rewrite (mt_bal _ _ _ _ _ Q2).
    repeat match goal with M : Moved _ _ _ _ _ ?v |- context [bal ?v _ _] => rewrite (mv_bal _ _ _ _ _ _ M) end. simp_ind. lia. }
  rewrite S. unfold mbind at 1, mguard at 1. destruct (_ <? m); cbn [negb]; [reflexivity|exact Y].
Qed.

Theorem C240_deposit_errors H w e self u da db sl dl mn n p : reachable H w -> stable_at w self p ->
  exec e (CStableProvide self u da db sl dl mn) w = Err (EContract n) ->
  (* TransactionAfterTimestampDeadline *) (n = 19 /\ late w dl) \/
  (* ProvideLiquiditySlippageToleranceTooHigh *) (n = 2 /\ l_maxslip p < opt_or sl (l_defslip p)) \/
  (* LowLiquidity *) (n = 10 /\ l_total p = 0 /\ exists D,
     compute_d (l_namp p) (scaled (l_ra p + da) (l_preca p)) (scaled (l_rb p + db) (l_precb p)) = Ok D /\ D / 10 ^ (18 - l_prec p) = 1000) \/
  (* IssuedSharesLessThanUserRequested *) (n = 21 /\ exists m, mn = Some m /\
     forall w', exec e (CStableProvide self u da db sl dl None) w = Ok (tt, w') -> bal w' (l_share p) u - bal w (l_share p) u < m).
Proof.
  intros Rc Hp X. pose proof (reach_stable _ _ Rc _ _ Hp) as I. pose proof (li_ra _ _ _ I) as Ra. pose proof (li_rb _ _ _ I) as Rb.
  destruct (li_dec _ _ _ I) as (Ta & Tb & Dp & Da & Db). pose proof X as X0.
  unfold exec in X |- *. unfold stable_provide in X.
  ew X. ew X; [apply deadline_err in X; left; exact X|].
  right. ew X. ew X.
  ew X. match goal with R : fget self (w_stable w) = Some ?q |- _ => unfold stable_at in Hp; rewrite Hp in R; inversion R; subst q; clear R end.
  ew X; [est X; left; split; [reflexivity|]; unfold opt_or; lia|]. right.
  est X. match goal with E : now _ = Ok _ |- _ => unfold now, mgets in E; inversion E; subst; clear E end.
  est X. match goal with E : mlift _ _ = Ok _ |- _ => apply mlift_ok2 in E; destruct E as [U4 ->]; pose proof U4 as V4; eapply amp_runs in V4; [|exact I|lia]; destruct V4 as [V4 V5] end.
  ew X. ew X. ew X. ew X. 
  est X. tinv. est X. tinv. ew X. ew X. ew X. ew X. ew X. ew X. ew X. ew X. tinv. rin.

  assert (Nn : @None Addr <> Some self) by discriminate. pose proof (authed_ne _ _ _ _ _ _ (reach_good _ _ Rc) R Nn R1) as Ns.
  assert (Nt : l_ta p <> l_tb p) by (pose proof (li_ord _ _ _ I); lia).
  assert (Ba : bal w1 (l_ta p) self - bal w0 (l_ta p) self + l_ra p = l_ra p + da).
  { repeat match goal with M : Moved _ _ _ _ _ ?v |- context [bal ?v _ _] => rewrite (mv_bal _ _ _ _ _ _ M) end. simp_ind. lia. }
  assert (Bb : bal w1 (l_tb p) self - bal w0 (l_tb p) self + l_rb p = l_rb p + db).
  { repeat match goal with M : Moved _ _ _ _ _ ?v |- context [bal ?v _ _] => rewrite (mv_bal _ _ _ _ _ _ M) end. simp_ind. lia. }
  rewrite Ba, Bb in X.
  assert (x0 = l_preca p) by congruence. assert (x1 = l_precb p) by congruence. subst x0 x1.
  est X; [exfalso; est X; revert X; apply rq_invariant; lia|].
  match goal with E : mlift _ _ = Ok _ |- _ => apply mlift_ok2 in E; destruct E as [U5 ->] end.
  est X.
  - left. est X. unfold stable_shares in X. destruct (l_total p =? 0) eqn:Et.
    + ew X. ew X. ew X. ew X. ew X; [|discriminate X]. est X. split; [reflexivity|]. split; [lia|].
      unfold invariant_of in U5. apply rbind_ok in U5. destruct U5 as (sa & Sa & U5). apply rbind_ok in U5. destruct U5 as (sb & Sb & U5).
      apply scale_ok in Sa; [|lia]. apply scale_ok in Sb; [|lia]. subst sa sb. eexists. split; [exact U5|].
      match goal with E : pow10_u _ = Ok _ |- _ => unfold pow10_u in E; destruct (_ <? 0); [discriminate E|]; apply Base.chk_ok in E; destruct E as [-> _] end.
      match goal with E : w2u _ = Ok _ |- _ => apply w2u_ok in E; subst end. change DECIMAL_PRECISION with 18 in *. unfold MINIMUM_LIQUIDITY_AMOUNT in *. lia.
    + exfalso. do 2 ew X. est X; [revert X; apply rq_invariant; lia|]. noq X.
  - right. est X; [|exfalso; noq X]. est X. split; [reflexivity|]. destruct mn as [m|]; [|discriminate X]. exists m. split; [reflexivity|].
    intros w' Y. unfold exec in X0. rewrite (stable_min_shares _ _ _ _ _ _ _ _ m _ _ _ I Hp Y) in X0.
    destruct (Z.ltb_spec (bal w' (l_share p) u - bal w0 (l_share p) u) m); [assumption|discriminate X0].
Qed.
Print Assumptions C240_deposit_errors.

(** ** C240: withdrawals *)
Theorem C240_withdraw_errors H w e self u share ma mb dl n p : reachable H w -> stable_at w self p ->
  exec e (CStableWithdraw self u share ma mb dl) w = Err (EContract n) ->
  (* TransactionAfterTimestampDeadline *) (n = 19 /\ late w dl) \/
  (* WithdrawLiquidityMinimumAmountOfAOrBIsNotSatisfied *)
  (n = 3 /\ 0 < share <= bal w (l_share p) u /\ 0 < l_total p /\
   let part r := r * (share * 10 ^ 18 / l_total p) / 10 ^ 18 in part (l_ra p) < ma \/ part (l_rb p) < mb).
Proof.
  intros Rc Hp X. pose proof (reach_stable _ _ Rc _ _ Hp) as I. pose proof (reach_good _ _ Rc) as G.
  pose proof (li_ra _ _ _ I) as Ra. pose proof (li_rb _ _ _ I) as Rb.
  unfold exec in X. apply drop_err in X. unfold stable_withdraw in X.
  ew X. ew X; [apply deadline_err in X; left; exact X|]. ew X. ew X.
  ew X. match goal with R : fget self (w_stable w) = Some ?q |- _ => unfold stable_at in Hp; rewrite Hp in R; inversion R; subst q; clear R end.
  right. est X. match goal with M : tok_transfer _ _ _ _ _ _ _ = Ok _ |- _ => rename M into Mv end.
  assert (T : share <= bal w (l_share p) u) by (tinv; match goal with M : Moved _ _ _ _ _ _ |- _ => apply M end).
  unfold vpos in *.
  assert (Pt : 0 < l_total p) by (pose proof (good_supply w (l_share p) u G); pose proof (li_sup _ _ _ I); lia).
  est X; [est X; lia|].
  est X. match goal with E : mlift (dec_from_ratio _ _) _ = Ok (?x, _) |- _ => apply mlift_ok2 in E; destruct E as [Er ->]; rename x into r end.
  apply dec_from_ratio_ok in Er. destruct Er as (_ & _ & Er).
  rewrite Z.quot_div_nonneg in Er; [|apply Z.mul_nonneg_nonneg; [lia|unfold DEC; lia]|lia].
  assert (Pr : 0 <= r) by (rewrite Er; apply Z.div_pos; [apply Z.mul_nonneg_nonneg; [lia|unfold DEC; lia]|lia]).
  est X. match goal with E : mlift (i_mul_dec (l_ra p) _) _ = Ok (?x, _) |- _ => apply mlift_ok2 in E; destruct E as [Ea ->]; rename x into a end.
  apply q_withdraw_part in Ea; [|lia|lia].
  est X. match goal with E : mlift (i_mul_dec (l_rb p) _) _ = Ok (?x, _) |- _ => apply mlift_ok2 in E; destruct E as [Eb ->]; rename x into b end.
  apply q_withdraw_part in Eb; [|lia|lia].
  est X.
  - est X. split; [reflexivity|]. split; [lia|]. split; [exact Pt|]. cbv zeta. change (10 ^ 18) with DEC. lia.
  - exfalso. est X. est X. est X. est X. est X. est X. est X. discriminate X.
Qed.
Print Assumptions C240_withdraw_errors.

(** ** C240: the other calls *)
Theorem C240_other_errors H w e n : reachable H w ->
  (forall self s a f r s1 s2 p, stable_at w self p -> exec e (CStableConfig self s a f r s1 s2) w = Err (EContract n) ->
    (* Unauthorized *) n = 11 /\ s <> l_admin p) /\
  (forall self h, exec e (CStableUpgrade self h) w <> Err (EContract n)) /\
  (forall self i f a m, exec e (CStableInit self i f a m) w = Err (EContract n) ->
    (* AlreadyInitialized *) (n = 7 /\ exists p, stable_at w self p) \/
    (* SwapFeeBpsOverLimit *) (n = 22 /\ m < i_fee i) \/
    (* TokenABiggerThanTokenB *) (n = 8 /\ i_tb i <= i_ta i) \/
    (* the stake contract's InvalidMinBond, InvalidMinReward and InvalidMaxComplexity *)
    (n = 2 /\ i_minbond i <= 0) \/ (n = 3 /\ i_minreward i <= 0) \/ (n = 12 /\ i_maxc i = 0) \/
    (* InvalidAMP *) (n = 18 /\ (a = 0 \/ 1000000 < a))).
Proof.
  intros Rc. split; [|split].
  - intros self s a f r s1 s2 p Hp X. unfold exec, stable_update_config in X. ew X. ew X.
    match goal with R : fget self (w_stable w) = Some ?q |- _ => unfold stable_at in Hp; rewrite Hp in R; inversion R; subst q; clear R end.
    est X; [est X; split; [reflexivity|lia]|]. exfalso. noq X.
  - intros self h X. unfold exec, stable_upgrade in X. noq X.
  - intros self i f a m X. unfold exec, stable_initialize in X.
    ew X. ew X. ew X; [est X; left; split; [reflexivity|]; unfold fmem, stable_at in *; destruct (fget self (w_stable _)) eqn:E; [eauto|discriminate]|].
    right. ew X. ew X; [est X; left; split; [reflexivity|lia]|].
    right. ew X; [est X; left; split; [reflexivity|lia]|].
    right. ew X. ew X. cbv zeta in X. est X. est X.
    + apply deploy_stake_err in X; [intuition|].
      match goal with D : deploy_share _ _ _ _ _ _ = Ok _ |- _ => apply (deploy_share_coded _ _ _ _ _ _ _ _ D) end.
      intros k q E. pose proof (gd_cstake _ (reach_good _ _ Rc) _ _ E). congruence.
    + right. right. right. est X. est X; [est X; split; [reflexivity|unfold MAX_AMP in X; lia]|]. exfalso. noq X.
Qed.
Print Assumptions C240_other_errors.
