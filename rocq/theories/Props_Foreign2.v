(** Stable pools of foreign tokens (C139), and vesting and staking rewards in tokens with a fee on transfer (C141). *)
From Coq Require Import ZArith List Bool Lia.
From Coq Require Import ZifyBool.
From Verif Require Import Base FMap Decimal DecimalProofs Curve World Token TokenProofs Frame Pool PoolProofs Stable StableProofs Foreign
  Stake Rewards Vest Factory Router System SysVest SysStake Script Runs Props_Token Props_Pool Props_Stable Props_Vest Props_Stake
  Props_PoolCases Props_StableCases Props_StakeCases Props_VestCases Props_Foreign.
Import ListNotations.
Open Scope Z_scope.

Lemma stable_swap_with_own : stable_swap_with tok_transfer = stable_swap. Proof. reflexivity. Qed.
Lemma stable_provide_with_own : stable_provide_with tok_transfer = stable_provide. Proof. reflexivity. Qed.
Lemma stable_withdraw_with_own : stable_withdraw_with tok_transfer = stable_withdraw. Proof. reflexivity. Qed.
Lemma vest_create_with_own : vest_create_with tok_transfer = vest_create. Proof. reflexivity. Qed.
Lemma vest_claim_with_own : vest_claim_with tok_transfer = vest_claim. Proof. reflexivity. Qed.
Lemma stake_distribute_with_own : stake_distribute_with tok_transfer = stake_distribute. Proof. reflexivity. Qed.

Definition lcovered (w : World) (self : Addr) (p : Stable) : Prop :=
  l_ra p <= bal w (l_ta p) self /\ l_rb p <= bal w (l_tb p) self.
Definition lsame_tokens (p p' : Stable) : Prop := l_ta p' = l_ta p /\ l_tb p' = l_tb p /\ l_share p' = l_share p.

Lemma comm_range g f : 0 <= g -> 0 <= f <= 10000 -> 0 <= Z.quot (g * dec_bps f) DEC <= g.
Proof.
  intros G F. assert (Ef : dec_bps f = f * 100000000000000).
  { unfold dec_bps, DEC. replace (f * 1000000000000000000) with (f * 100000000000000 * 10000) by lia.
    try (rewrite Z.quot_mul by lia); try (rewrite Z.div_mul by lia); lia. }
  rewrite Ef. rewrite Z.quot_div_nonneg by (unfold DEC; nia). split; [apply Z.div_pos; unfold DEC; nia|].
  apply Z.div_le_upper_bound; unfold DEC; nia.
Qed.

Theorem C139_foreign_stable_swap_solvent tr e c self sender offer amt mi ms dl mf w ret w' p :
  fair_for self tr -> stable_at w self p -> l_ta p <> l_tb p -> 0 <= l_fee p <= 10000 -> lcovered w self p ->
  stable_swap_with tr e c self sender offer amt mi ms dl mf w = Ok (ret, w') ->
  exists p', stable_at w' self p' /\ lsame_tokens p p' /\ lcovered w' self p' /\ l_total p' = l_total p.
Proof.
  intros F Hp Nt Fe [Ca Cb] X. unfold stable_swap_with in X. rstep X. winv.
  match goal with R : stable_do_swap_with _ _ _ _ _ _ _ _ _ _ = _ |- _ => rename R into H end.
  unfold stable_do_swap_with in H. apply mbind_ok in H. destruct H as [p0 [w0 [H0 H]]].
  apply get_stable_ok in H0. destruct H0 as [Hp0 ->]. unfold stable_at in *. rewrite Hp in Hp0. inversion Hp0; subst p0. clear Hp0.
  rstep H.
  match goal with G : (offer =? _) || _ = true |- _ => rename G into Ho end.
  match goal with Q : _ = Ok (ret, w') |- _ => rename Q into H end.
  destruct (Z.eqb_spec offer (l_ta p)) as [Eo|Eo]; [|assert (Eo2 : offer = l_tb p) by lia];
    cbv beta iota zeta in H; rstep H;
    match goal with z : (Z * Z * Z)%type |- _ => destruct z as [[rt sp] cm] end;
    match goal with Q : _ = Ok (ret, w') |- _ => rename Q into H end;
    cbv beta iota zeta in H; rstep H; tinv; winv; repeat match goal with u : unit |- _ => destruct u end;
    match goal with Q : stable_compute_swap _ _ _ _ _ _ _ _ = Ok _ |- _ => apply stable_compute_swap_ok in Q; destruct Q as [ny SN] end;
    pose proof (sm_ny _ _ _ _ _ _ _ _ _ _ _ _ SN) as Ny; pose proof (sm_sum _ _ _ _ _ _ _ _ _ _ _ _ SN) as Sm;
    pose proof (sm_comm _ _ _ _ _ _ _ _ _ _ _ _ SN) as Cm;
    match type of Cm with _ = Z.quot (?g * _) _ => pose proof (comm_range g (l_fee p) ltac:(lia) Fe) as Cr end; rewrite <- Cm in Cr;
    match goal with Q : tr e (Some self) _ sender self amt _ = Ok (tt, ?wx) |- _ => rename Q into M1; rename wx into W1 end;
    match goal with Q : tr e (Some self) _ self sender _ _ = Ok (tt, ?wx), Q2 : tr e (Some self) _ self (l_feerec p) _ ?wx = Ok (tt, ?wy) |- _ =>
      rename Q into M2; rename wx into W2; rename Q2 into M3; rename wy into W3 end;
    destruct (F _ _ _ _ _ _ _ M1) as [A1 [A2 _]]; destruct (F _ _ _ _ _ _ _ M2) as [B1 [B2 B3]]; destruct (F _ _ _ _ _ _ _ M3) as [C1 [C2 C3]];
    specialize (B3 eq_refl ltac:(lia)); specialize (C3 eq_refl ltac:(lia));
    (eexists; split; [simpl; apply fget_set_same|]); unfold lcovered, lsame_tokens; cbn [set_l_res l_ta l_tb l_share l_ra l_rb l_total];
    change (bal (set_stable W3 ?q)) with (bal W3).
  - specialize (A2 (l_tb p) ltac:(auto)). specialize (B2 (l_ta p) ltac:(auto)). specialize (C2 (l_ta p) ltac:(auto)). repeat split; lia.
  - specialize (A2 (l_ta p) ltac:(auto)). specialize (B2 (l_tb p) ltac:(auto)). specialize (C2 (l_tb p) ltac:(auto)). repeat split; lia.
Qed.
Print Assumptions C139_foreign_stable_swap_solvent.

Theorem C139_foreign_stable_withdrawal_solvent tr e c self sender share mina minb dl w a b w' p :
  fair_for self tr -> stable_at w self p -> l_ta p <> l_tb p -> l_share p <> l_ta p -> l_share p <> l_tb p ->
  lcovered w self p -> 0 <= l_ra p -> 0 <= l_rb p -> 0 < l_total p ->
  stable_withdraw_with tr e c self sender share mina minb dl w = Ok ((a, b), w') ->
  0 < a /\ l_total p * a <= l_ra p * share /\ 0 < b /\ l_total p * b <= l_rb p * share /\
  exists p', stable_at w' self p' /\ lsame_tokens p p' /\ lcovered w' self p' /\
    l_total p' = l_total p - share /\ l_ra p' = l_ra p - a /\ l_rb p' = l_rb p - b.
Proof.
  intros F Hp Nt Na Nb [Ca Cb] Pa Pb Pt X. unfold stable_withdraw_with in X. rstep X. winv. tinv. destr_pair.
  repeat match goal with u : unit |- _ => destruct u end.
  match goal with R : fget self (w_stable w) = Some ?q |- _ => unfold stable_at in Hp; rewrite Hp in R; inversion R; subst q; clear R end.
  match goal with R : Moved (l_share p) _ _ _ _ ?wx |- _ => rename R into M1; rename wx into W1 end.
  match goal with R : stable_burn_shares _ _ _ _ = Ok (_, ?wx) |- _ => apply stable_burn_shares_ok in R;
    destruct R as [p3 [W2 [Ep3 [Bn [Eend Etok]]]]]; rename wx into W2' end.
  rewrite (mv_stable _ _ _ _ _ _ M1), Hp in Ep3. inversion Ep3; subst p3; clear Ep3.
  match goal with R : tr _ _ (l_ta p) _ _ _ _ = Ok (_, ?wx) |- _ => rename R into X3; rename wx into W3 end.
  match goal with R : tr _ _ (l_tb p) _ _ _ _ = Ok (_, ?wx) |- _ => rename R into X4; rename wx into W4 end.
  match goal with R : fget self (w_stable W4) = Some _ |- _ => rename R into Hp4 end.
  match goal with R : dec_from_ratio _ _ = Ok _ |- _ => apply dec_from_ratio_pos in R; [destruct R as [Qa [_ Qb]]|cbn [vpos] in *; lia|exact Pt] end.
  repeat match goal with R : i_mul_dec _ _ = Ok _ |- _ => apply i_mul_dec_pos in R; [|lia|lia]; destruct R as [? [_ ?]] end.
  cbn [vpos] in *. unfold DEC in *.
  split; [lia|]. split; [nia|]. split; [lia|]. split; [nia|].
  destruct (F _ _ _ _ _ _ _ X3) as [A1 [A2 A3]]. destruct (F _ _ _ _ _ _ _ X4) as [B1 [B2 B3]].
  specialize (A3 eq_refl ltac:(lia)). specialize (B3 eq_refl ltac:(lia)).
  rewrite B1 in Hp4. cbn [set_tok w_stable] in Hp4. rewrite A1 in Hp4. cbn [set_tok w_stable] in Hp4. rewrite Eend in Hp4. inversion Hp4; subst; clear Hp4.
  specialize (A2 (l_tb p) ltac:(auto)). specialize (B2 (l_ta p) ltac:(auto)).
  assert (E0 : forall x, x <> l_share p -> bal W2' x self = bal w x self).
  { intros x Nx. rewrite (bal_wtok W2 W2') by auto. rewrite (bn_bal _ _ _ _ _ Bn), (mv_bal _ _ _ _ _ _ M1).
    destruct (Z.eqb_spec x (l_share p)); [contradiction|]. cbn [andb]. unfold ind. lia. }
  rewrite !E0 in * by auto.
  eexists. split; [unfold stable_at; simpl; apply fget_set_same|]. unfold lsame_tokens, lcovered.
  cbn [set_l_res set_l_total l_ta l_tb l_share l_ra l_rb l_total]. change (bal (set_stable W4 _)) with (bal W4).
  repeat split; lia.
Qed.
Print Assumptions C139_foreign_stable_withdrawal_solvent.

(** After a deposit the reserves are the balances, whatever arrived. *)
Theorem C139_foreign_stable_deposit_solvent tr e c self sender da db custom dl mins w w' p :
  fair_for self tr -> stable_at w self p -> l_share p <> l_ta p -> l_share p <> l_tb p ->
  stable_provide_with tr e c self sender da db custom dl mins w = Ok (tt, w') ->
  exists p', stable_at w' self p' /\ lsame_tokens p p' /\ l_ra p' = bal w' (l_ta p) self /\ l_rb p' = bal w' (l_tb p) self.
Proof.
  intros F Hp Na Nb X. unfold stable_provide_with in X. rstep X. winv. tinv. winv.
  repeat match goal with u : unit |- _ => destruct u end.
  match goal with R : fget self (w_stable w) = Some ?q |- _ => unfold stable_at in Hp; rewrite Hp in R; inversion R; subst q; clear R end.
  match goal with R : tr _ _ (l_ta p) _ _ _ _ = Ok (_, ?wx) |- _ => rename R into X1; rename wx into W1 end.
  match goal with R : tr _ _ (l_tb p) _ _ _ _ = Ok (_, ?wx) |- _ => rename R into X2; rename wx into W2 end.
  match goal with R : stable_mint_shares _ _ _ _ _ = Ok (_, ?wx) |- _ => apply stable_mint_shares_ok in R;
    destruct R as [p3 [W4 [Ep3 [Mt [Eend [Etok _]]]]]]; rename wx into W5 end.
  destruct (F _ _ _ _ _ _ _ X1) as [A1 _]. destruct (F _ _ _ _ _ _ _ X2) as [B1 _].
  assert (Ep2 : fget self (w_stable W2) = Some p). { rewrite B1. simpl. rewrite A1. simpl. exact Hp. }
  rewrite Ep2 in Ep3. inversion Ep3; subst p3.
  match goal with R : fget self (w_stable W5) = Some ?q |- _ => rewrite Eend in R; inversion R; subst q; clear R end.
  eexists. split; [unfold stable_at; simpl; apply fget_set_same|]. unfold lsame_tokens.
  cbn [set_l_res set_l_total l_ta l_tb l_share l_ra l_rb l_total]. change (bal (set_stable W5 _)) with (bal W5).
  split; [auto|].
  rewrite !(bal_wtok W4 W5) by auto. rewrite !(mt_bal _ _ _ _ _ Mt).
  destruct (Z.eqb_spec (l_ta p) (l_share p)); [congruence|]. destruct (Z.eqb_spec (l_tb p) (l_share p)); [congruence|]. cbn [andb]. unfold ind. lia.
Qed.
Print Assumptions C139_foreign_stable_deposit_solvent.

(** stable pools: the tokens of the stable example pool, a tenth charged on transfer *)
Lemma xtax_fair20 : fair_for 20 xtax.
Proof. apply fair_taxed; [lia|]. intros t a P. apply Z.div_le_upper_bound; lia. Qed.
Definition lP0 : Stable := yP 19999000 (10^7) (10^7).
Example C139_stable_example : lcovered yW 20 lP0 /\ l_ta lP0 <> l_tb lP0 /\ l_share lP0 <> l_ta lP0 /\ l_share lP0 <> l_tb lP0 /\
  (exists r, stable_swap_with xtax (env_of [-4]) None 20 (-4) 1 1000000 None None None None yW = Ok r) /\
  (exists r, stable_withdraw_with xtax (env_of [-2]) None 20 (-2) 10000 1 1 None yW = Ok r) /\
  (exists r, stable_provide_with xtax (env_of [-4]) None 20 (-4) 100000 100000 None None None yW = Ok r).
Proof.
  split; [vm_compute; split; discriminate|]. split; [vm_compute; discriminate|]. split; [vm_compute; discriminate|]. split; [vm_compute; discriminate|].
  split; [|split]; eexists; vm_compute; reflexivity.
Qed.

(** ** C141: what is recorded as owed is not what arrived.  A vesting contract records the schedules of an
    ordinary creation and a staking contract the reward of an ordinary distribution, but holds the fee less. *)
Ltac both X := let a := fresh "a" in let v := fresh "v" in let Xa := fresh "Xa" in
  apply mbind_ok in X; destruct X as [a [v [Xa X]]]; erewrite run_bind by exact Xa.
Lemma taxed_create tax sink e c self l w w' : vest_create_with (taxed tax sink) e c self l w = Ok (tt, w') ->
  exists w0 t T, vest_create e c self l w = Ok (tt, w0) /\ tok_transfer e (Some self) t self sink (tax t T) w0 = Ok (tt, w') /\
    exists v v', fget self (w_vest w) = Some v /\ t = v_token v /\ create_all v l 0 = Ok (v', T).
Proof.
  unfold vest_create_with, vest_create. intros X. both X. both X. both X. both X. both X. both X.
  apply mbind_ok in X. destruct X as [[v' tot] [w1 [Xa7 X]]]. erewrite run_bind by exact Xa7. both X. both X. both X. both X.
  unfold taxed in X. apply mbind_ok in X. destruct X as [[] [w0 [X1 X2]]].
  eexists w0, _, _. split; [exact X1|].
  split; [exact X2|]. exists a1, v'. apply enter_ok in Xa. destruct Xa as [_ ->]. apply mguard_ok in Xa0. destruct Xa0 as [_ E0]. inversion E0; subst v0.
  apply get_vest_ok in Xa1. destruct Xa1 as [G1 ->]. split; [exact G1|]. split; [reflexivity|].
  apply mlift_ok in Xa7. destruct Xa7 as [q [E7 Q7]]. inversion Q7; subst. rewrite E7.
  apply mlift_ok in Xa6. destruct Xa6 as [q6 [E6 Q6]]. inversion Q6; subst. unfold u2i in E6. destruct (I128_MAX <? tot); inversion E6. reflexivity.
Qed.
Theorem C141_taxed_creation_underfunds tax sink e c self l w w' v : sink <> self -> vest_at w self v -> v_admin v <> self ->
  vest_create_with (taxed tax sink) e c self l w = Ok (tt, w') ->
  exists w0 T, vest_create e c self l w = Ok (tt, w0) /\ w_vest w' = w_vest w0 /\
    bal w0 (v_token v) self = bal w (v_token v) self + T /\
    bal w' (v_token v) self = bal w (v_token v) self + T - tax (v_token v) T.
Proof.
  intros Ns E Na X. apply taxed_create in X. destruct X as [w0 [t [T [X0 [X1 [v0 [v' [E0 [-> Ca]]]]]]]]].
  unfold vest_at in E. rewrite E in E0. inversion E0; subst v0. exists w0, T. split; [exact X0|].
  apply tok_transfer_moved in X1. destruct X1 as [_ M].
  apply vest_create_ok in X0. destruct X0 as [v0 [v1 [T1 [B1 B2 B3 B4 B5 B6 B7 B8 B9]]]]. rewrite E in B2. inversion B2; subst v0.
  rewrite Ca in B7. inversion B7; subst v1 T1.
  split; [rewrite (mv_rest _ _ _ _ _ _ M); reflexivity|].
  assert (B : bal w0 (v_token v) self = bal w (v_token v) self + T).
  { rewrite (mv_bal _ _ _ _ _ _ B8), !Z.eqb_refl. destruct (Z.eqb_spec self (v_admin v)); [congruence|]. cbn [andb]. unfold ind.
    change (bal (set_vest w _)) with (bal w). lia. }
  split; [exact B|]. rewrite (mv_bal _ _ _ _ _ _ M), B, !Z.eqb_refl. destruct (Z.eqb_spec self sink); [congruence|]. cbn [andb]. unfold ind. lia.
Qed.
Print Assumptions C141_taxed_creation_underfunds.

Theorem C141_taxed_distribution_underfunds tax sink e c self u amt a w w' : sink <> self -> u <> self ->
  stake_distribute_with (taxed tax sink) e c self u amt a w = Ok (tt, w') ->
  exists w0, stake_distribute e c self u amt a w = Ok (tt, w0) /\ w_stake w' = w_stake w0 /\
    bal w0 a self = bal w a self + amt /\ bal w' a self = bal w a self + amt - tax a amt.
Proof.
  intros Ns Nu X. unfold stake_distribute_with in X.
  assert (Y : exists w0 w1, stake_distribute e c self u amt a w = Ok (tt, w0) /\ w_tok w1 = w_tok w /\
     tok_transfer e (Some self) a u self amt w1 = Ok (tt, w0) /\ tok_transfer e (Some self) a self sink (tax a amt) w0 = Ok (tt, w')).
  { unfold stake_distribute. both X. both X. both X. both X. both X. both X. both X. both X.
    unfold taxed in X. apply mbind_ok in X. destruct X as [[] [w0 [X1 X2]]]. exists w0. eexists. split; [exact X1|]. split; [|split; [exact X1|exact X2]].
    apply enter_ok in Xa. destruct Xa as [_ ->]. apply require_auth_ok in Xa0. destruct Xa0 as [_ ->].
    apply get_stake_ok in Xa1. destruct Xa1 as [_ ->]. apply mguard_ok in Xa2. destruct Xa2 as [_ E2]. inversion E2; subst.
    apply mguard_ok in Xa3. destruct Xa3 as [_ E3]. inversion E3; subst. inversion Xa4; subst.
    apply mlift_ok in Xa5. destruct Xa5 as [? [_ E5]]. inversion E5; subst. inversion Xa6; subst. reflexivity. }
  destruct Y as [w0 [w1 [Y0 [Y1 [Y2 Y3]]]]]. exists w0. split; [exact Y0|].
  apply tok_transfer_moved in Y2. destruct Y2 as [_ M1]. apply tok_transfer_moved in Y3. destruct Y3 as [_ M2].
  split; [rewrite (mv_rest _ _ _ _ _ _ M2); reflexivity|].
  assert (B : bal w0 a self = bal w a self + amt).
  { rewrite (mv_bal _ _ _ _ _ _ M1), !Z.eqb_refl. destruct (Z.eqb_spec self u); [congruence|]. cbn [andb]. unfold ind.
    rewrite (bal_wtok w w1) by auto. lia. }
  split; [exact B|]. rewrite (mv_bal _ _ _ _ _ _ M2), B, !Z.eqb_refl. destruct (Z.eqb_spec self sink); [congruence|]. cbn [andb]. unfold ind. lia.
Qed.
Print Assumptions C141_taxed_distribution_underfunds.

(** C141 fails: schedules of 1000 and 600 are created with a token that charges a tenth; 1440 arrive.  At the
    end the first recipient takes 1000 and the claim of the second cannot be paid. *)
Definition vtax_run : res (unit * World) :=
  (vest_create_with xtax (env_of [-1]) None 30 vlist ;; mmod (fun w => set_time w 400 5) ;; vest_claim_with xtax (env_of [-5]) None 30 (-5) 0) (world_of v0).
Theorem C141_recorded_amounts_arrive_refuted : exists w1 w2 v,
  reachable xH (world_of v0) /\ vest_create_with xtax (env_of [-1]) None 30 vlist (world_of v0) = Ok (tt, w1) /\
  bal w1 1 30 = bal (world_of v0) 1 30 + 1440 /\
  vtax_run = Ok (tt, w2) /\ vest_at w2 30 v /\ v_entries v (-7) = fset 0 (mkVInfo 600 (-7) vpl) fempty /\ cvalue vpl (w_now w2) = Ok 0 /\
  bal w2 1 30 = 440 /\ forall r, vest_claim_with xtax (env_of [-7]) None 30 (-7) 0 w2 <> Ok r.
Proof.
  exists (after (vest_create_with xtax (env_of [-1]) None 30 vlist (world_of v0))), (after vtax_run).
  eexists. split; [apply world_reach; vm_compute; reflexivity|]. split; [vm_compute; reflexivity|]. split; [vm_compute; reflexivity|].
  split; [vm_compute; reflexivity|]. split; [vm_compute; reflexivity|]. split; [vm_compute; reflexivity|]. split; [vm_compute; reflexivity|].
  split; [vm_compute; reflexivity|]. intros r. vm_compute. discriminate.
Qed.
Print Assumptions C141_recorded_amounts_arrive_refuted.
Example C141_distribution_example : exists w1,
  stake_distribute_with xtax (env_of [-1]) None 20 (-1) 1000 2 (world_of (ssetup ++ sbond)) = Ok (tt, w1) /\ bal w1 2 20 = 900.
Proof. eexists. split; vm_compute; reflexivity. Qed.
