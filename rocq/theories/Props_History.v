(** The value of a share of a constant-product pool over a whole history (C158). *)
From Coq Require Import ZArith List Bool Lia.
From Coq Require Import ZifyBool.
From Verif Require Import Base FMap Decimal DecimalProofs Curve World Token TokenProofs Frame Stake Pool PoolProofs
  Stable StableProofs Rewards Vest Factory Router System SysFrame SysInv SysPool SysStable SysSupply
  SysVest SysStake SysRewards Script Runs Props_Token Props_Pool Props_Stable Props_Vest Props_Stake Props_Rewards SysFact Props_Factory Props_Upgrade
  Props_Router Props_Guards.
Import ListNotations.
Open Scope Z_scope.

(** how often a call may swap on the pool at [c] *)
Definition visits (c : Addr) (k : Call) : Z :=
  match k with
  | CPoolSwap p _ _ _ _ _ _ _ => if p =? c then 1 else 0
  | CHopSwap _ _ ops _ _ _ _ => Z.of_nat (length ops)
  | _ => 0
  end.
Fixpoint total_visits (c : Addr) (l : list Event) : Z :=
  match l with
  | [] => 0
  | Tx _ k :: l => visits c k + total_visits c l
  | Tick _ _ :: l => total_visits c l
  end.
Lemma visits_nonneg c k : 0 <= visits c k. Proof. destruct k; simpl; try lia. destruct (_ =? _); lia. Qed.

(** one swap: the product of the reserves falls by less than the supply of the offered token, never rises *)
Definition SwapOn (w w' : World) (c : Addr) (p p' : Pool) : Prop :=
  p_ta p' = p_ta p /\ p_tb p' = p_tb p /\ p_total p' = p_total p /\ p_ra p' * p_rb p' <= p_ra p * p_rb p /\
  forall M, supply w (p_ta p) <= M -> supply w (p_tb p) <= M -> p_ra p * p_rb p < p_ra p' * p_rb p' + M.
Lemma swap_on H w e c u o x mi ms dl mf y w' p : reachable H w -> e_hash e = H -> pool_at w c p ->
  pool_swap e None c u o x mi ms dl mf w = Ok (y, w') -> exists p', pool_at w' c p' /\ SwapOn w w' c p p'.
Proof.
  intros R Eh Hp X.
  assert (R' : reachable H w').
  { eapply (reach_tx H w e (CPoolSwap c u o x mi ms dl mf)); eauto. simpl. unfold drop, mbind. rewrite X. reflexivity. }
  pose proof (C14_sender_is_not_the_pool _ _ _ None _ _ _ _ _ _ _ _ _ _ R ltac:(discriminate) X) as Ns.
  destruct (swap_facts _ _ _ _ _ _ _ _ _ _ _ _ _ Ns X) as [p0 [p' [a [b [g [f [sp [buy F]]]]]]]].
  pose proof (sf_before F) as E. unfold pool_at in E, Hp. rewrite Hp in E. inversion E; subst p0; clear E.
  exists p'. pose proof (sf_after F) as Hp'. split; [exact Hp'|].
  pose proof (sf_same F) as S. pose proof (sf_side F) as S1. pose proof (sf_side' F) as S2. pose proof (sf_product F) as P.
  pose proof (reach_pool _ _ R' _ _ Hp') as I. pose proof (reach_good _ _ R') as G.
  assert (Ea : p_ta p' = p_ta p) by (rewrite S; reflexivity). assert (Eb : p_tb p' = p_tb p) by (rewrite S; reflexivity).
  assert (Et : p_total p' = p_total p) by (rewrite S; reflexivity).
  split; [exact Ea|]. split; [exact Eb|]. split; [exact Et|].
  pose proof (good_supply _ (p_ta p') c G) as La. pose proof (good_supply _ (p_tb p') c G) as Lb.
  rewrite Ea in La. rewrite Eb in Lb. rewrite (sf_supply F) in La, Lb.
  pose proof (pi_ra _ _ _ I) as Ra. pose proof (pi_rb _ _ _ I) as Rb. rewrite Ea in Ra. rewrite Eb in Rb.
  unfold side in S1, S2. destruct S1 as [[A1 [A2 [A3 A4]]]|[A1 [A1' [A2 [A3 A4]]]]]; destruct S2 as [[B1 [B2 [B3 B4]]]|[B1 [B1' [B2 [B3 B4]]]]];
    try congruence; subst a b; (split; [rewrite <- B3, <- B4; lia|intros M Ma Mb; rewrite B3, B4 in *; lia]).
Qed.

Definition value_kept (M n : Z) (p p' : Pool) : Prop :=
  p_ra p * p_rb p * p_total p' ^ 2 * 10^6 <= p_ra p' * p_rb p' * p_total p ^ 2 * 10^6 + n * M * p_total p ^ 2 * p_total p' ^ 2.

Lemma kept_trans M n n' p q r : 1000 <= p_total q -> 0 <= p_total p -> 0 <= p_total r ->
  value_kept M n p q -> value_kept M n' q r -> value_kept M (n + n') p r.
Proof.
  unfold value_kept. intros Q P R A B.
  set (k0 := p_ra p * p_rb p) in *. set (k1 := p_ra q * p_rb q) in *. set (k2 := p_ra r * p_rb r) in *.
  set (s0 := p_total p ^ 2) in *. set (s1 := p_total q ^ 2) in *. set (s2 := p_total r ^ 2) in *.
  assert (P0 : 0 <= s0) by (unfold s0; apply Z.pow_nonneg; lia).
  assert (P1 : 0 < s1) by (unfold s1; apply Z.pow_pos_nonneg; lia).
  assert (P2 : 0 <= s2) by (unfold s2; apply Z.pow_nonneg; lia).
  apply (Z.mul_le_mono_nonneg_r _ _ s2 P2) in A. apply (Z.mul_le_mono_nonneg_r _ _ s0 P0) in B.
  apply (Zmult_le_reg_r _ _ s1); [lia|].
  replace (k0 * s2 * 10^6 * s1) with (k0 * s1 * 10 ^ 6 * s2) by ring.
  replace ((k2 * s0 * 10^6 + (n + n') * M * s0 * s2) * s1) with ((k2 * s1 * 10 ^ 6 + n' * M * s1 * s2) * s0 + n * M * s0 * s1 * s2) by ring.
  replace ((k1 * s0 * 10 ^ 6 + n * M * s0 * s1) * s2) with (k1 * s2 * 10 ^ 6 * s0 + n * M * s0 * s1 * s2) in A by ring. lia.
Qed.
Lemma kept_swap M w w' c p p' : 1000 <= p_total p -> SwapOn w w' c p p' -> supply w (p_ta p) <= M -> supply w (p_tb p) <= M -> 0 <= M ->
  value_kept M 1 p p'.
Proof.
  intros T [_ [_ [Et [_ L]]]] Ma Mb PM. specialize (L M Ma Mb). unfold value_kept. rewrite Et.
  set (k := p_ra p * p_rb p) in *. set (k' := p_ra p' * p_rb p') in *. set (s := p_total p ^ 2) in *.
  assert (S1 : 10^6 <= s). { unfold s. change (10^6) with (1000^2). apply Z.pow_le_mono_l. lia. }
  assert (M * s * 10^6 <= M * s * s) by (apply Z.mul_le_mono_nonneg_l; [apply Z.mul_nonneg_nonneg; lia|exact S1]).
  assert (k * (s * 10^6) <= (k' + M) * (s * 10^6)) by (apply Z.mul_le_mono_nonneg_r; lia). lia.
Qed.
Lemma kept_same M p p' : p_ra p * p_total p' <= p_ra p' * p_total p -> p_rb p * p_total p' <= p_rb p' * p_total p ->
  0 <= p_ra p -> 0 <= p_rb p -> 0 <= p_total p' -> value_kept M 0 p p'.
Proof.
  intros A B Pa Pb Pt. unfold value_kept.
  assert ((p_ra p * p_total p') * (p_rb p * p_total p') <= (p_ra p' * p_total p) * (p_rb p' * p_total p))
    by (apply Z.mul_le_mono_nonneg; auto using Z.mul_nonneg_nonneg).
  rewrite !Z.pow_2_r. lia.
Qed.

Lemma pool_total_kept H w e k w' c p : reachable H w -> e_hash e = H -> exec e k w = Ok (tt, w') -> pool_at w c p -> 0 < p_total p ->
  exists p', pool_at w' c p' /\ p_ta p' = p_ta p /\ p_tb p' = p_tb p /\ 1000 <= p_total p'.
Proof.
  intros R Eh X Hp T. destruct (pool_step _ _ _ _ X (reach_good _ _ R) (reach_pool _ _ R) _ _ Hp) as [p' [E [[A B _ _] [_ [Q _]]]]].
  exists p'. split; [exact E|]. split; [auto|]. split; [auto|].
  assert (R' : reachable H w') by (eapply reach_tx; eauto). pose proof (reach_pool _ _ R' _ _ E) as I.
  destruct (pi_min _ _ _ I) as [Z0|[Z0 _]]; [|exact Z0]. exfalso. destruct (pi_min _ _ _ (reach_pool _ _ R _ _ Hp)) as [Z1|[Z1 _]]; lia.
Qed.

(** the legs of a route *)
Lemma legs_kept M c H e f u ms dl mf : e_hash e = H -> 0 <= M -> forall ops ps x w r w', reachable H w -> Legs e f u ms dl mf ops ps x w r w' ->
  forall p, pool_at w c p -> 1000 <= p_total p -> supply w (p_ta p) <= M -> supply w (p_tb p) <= M ->
  exists p', pool_at w' c p' /\ p_ta p' = p_ta p /\ p_tb p' = p_tb p /\ p_total p' = p_total p /\ p_ra p' * p_rb p' <= p_ra p * p_rb p /\
    value_kept M (Z.of_nat (length ops)) p p'.
Proof.
  intros Eh PM. induction ops as [|o ops IH]; intros ps x w r w' R L p Hp T Ma Mb;
    inversion L as [|o0 ops0 q ps0 x0 y z w0 w1 w2 Q D L']; subst.
  - exists p. split; [exact Hp|]. split; [auto|]. split; [auto|]. split; [auto|]. split; [lia|]. apply kept_same; try lia.
    + pose proof (pi_ra _ _ _ (reach_pool _ _ R _ _ Hp)); lia.
    + pose proof (pi_rb _ _ _ (reach_pool _ _ R _ _ Hp)); lia.
  - destruct (leg_facts _ _ _ _ _ _ _ _ _ _ _ _ _ R eq_refl Q D) as [R1 F].
    assert (S : exists p1, pool_at w1 c p1 /\ p_ta p1 = p_ta p /\ p_tb p1 = p_tb p /\ p_total p1 = p_total p /\
        p_ra p1 * p_rb p1 <= p_ra p * p_rb p /\ value_kept M 1 p p1).
    { assert (Same : pool_at w1 c p -> exists p1, pool_at w1 c p1 /\ p_ta p1 = p_ta p /\ p_tb p1 = p_tb p /\ p_total p1 = p_total p /\
        p_ra p1 * p_rb p1 <= p_ra p * p_rb p /\ value_kept M 1 p p1).
      { intros E. exists p. split; [exact E|]. split; [auto|]. split; [auto|]. split; [auto|]. split; [lia|]. unfold value_kept.
        assert (0 <= M * p_total p ^ 2 * p_total p ^ 2) by (repeat apply Z.mul_nonneg_nonneg; try apply Z.pow_nonneg; lia). lia. }
      destruct (Z.eq_dec c q) as [<-|Nq].
      - destruct D as [D|D].
        + destruct (swap_on _ _ _ _ _ _ _ _ _ _ _ _ _ _ R eq_refl Hp D) as [p1 [E S]].
          pose proof (kept_swap M _ _ _ _ _ T S Ma Mb PM) as V. destruct S as [A [B [Ct [Lk _]]]]. exists p1. tauto.
        + exfalso. unfold stable_swap in D. apply mbind_ok in D. destruct D as [z1 [v1 [D1 _]]]. apply enter_ok in D1. destruct D1 as [D1 _].
          pose proof (gd_cpool _ (reach_good _ _ R) _ _ Hp). congruence.
      - apply Same. unfold pool_at. rewrite (proj1 (lg_other _ _ _ _ _ _ _ _ _ F _ Nq)). exact Hp. }
    destruct S as [p1 [E1 [A1 [B1 [T1 [K1 V1]]]]]].
    destruct (IH _ _ _ _ _ R1 L' p1 E1 ltac:(lia)) as [p' [E [A [B [Tt [K V]]]]]].
    { rewrite A1, (lg_sup _ _ _ _ _ _ _ _ _ F). exact Ma. } { rewrite B1, (lg_sup _ _ _ _ _ _ _ _ _ F). exact Mb. }
    exists p'. split; [exact E|]. split; [congruence|]. split; [congruence|]. split; [congruence|]. split; [lia|].
    replace (Z.of_nat (length (o :: ops))) with (1 + Z.of_nat (length ops)) by (simpl length; lia).
    eapply kept_trans; [| | |exact V1|exact V]; lia.
Qed.

Lemma one_tx H w e k w' c p M : reachable H w -> e_hash e = H -> exec e k w = Ok (tt, w') -> pool_at w c p -> 0 < p_total p ->
  supply w (p_ta p) <= M -> supply w (p_tb p) <= M ->
  exists p', pool_at w' c p' /\ p_ta p' = p_ta p /\ p_tb p' = p_tb p /\ 1000 <= p_total p' /\ value_kept M (visits c k) p p' /\
    (may_swap c k -> p_total p' = p_total p /\ p_ra p' * p_rb p' <= p_ra p * p_rb p).
Proof.
  intros R Eh X Hp T Ma Mb. pose proof (reach_good _ _ R) as G. pose proof (reach_pool _ _ R _ _ Hp) as I.
  assert (T1 : 1000 <= p_total p) by (destruct (pi_min _ _ _ I); lia).
  assert (PM : 0 <= M). { pose proof (good_supply _ (p_ta p) c G). pose proof (pi_ra _ _ _ I). lia. }
  destruct (pool_total_kept _ _ _ _ _ _ _ R Eh X Hp T) as [p' [E [A [B T']]]].
  exists p'. split; [exact E|]. split; [exact A|]. split; [exact B|]. split; [exact T'|].
  assert (NS : ~ may_swap c k -> visits c k = 0 -> value_kept M (visits c k) p p').
  { intros N ->. destruct (C105_share_value_kept _ _ _ _ _ _ _ R Hp X N) as [q [Eq [V1 V2]]]. unfold pool_at in *. rewrite E in Eq. inversion Eq; subst q.
    apply kept_same; auto; try lia; [pose proof (pi_ra _ _ _ I)|pose proof (pi_rb _ _ _ I)]; lia. }
  assert (Cs : (exists u o x mi ms dl mf, k = CPoolSwap c u o x mi ms dl mf) \/ (exists h u ops ms x dl mf, k = CHopSwap h u ops ms x dl mf) \/
    (exists d u tok q x ms dl mi mf, k = CTrade d u tok q x ms dl mi mf) \/ (~ may_swap c k /\ visits c k = 0)).
  { destruct k; try (right; right; right; simpl; split; [tauto|reflexivity]).
    - simpl. destruct (Z.eqb_spec p0 c) as [->|N]; [left; eauto 10|right; right; right; auto].
    - right. left. eauto 10.
    - right. right. left. eauto 12. }
  destruct Cs as [[u [o [x [mi [ms [dl [mf ->]]]]]]]|[[h [u [ops [ms [x [dl [mf ->]]]]]]]|[[d [u [tok [q [x [ms [dl [mi [mf ->]]]]]]]]]|[N V0]]]].
  - simpl in X. apply drop_ok in X. destruct X as [y X].
    destruct (swap_on _ _ _ _ _ _ _ _ _ _ _ _ _ _ R Eh Hp X) as [q [Eq S]]. unfold pool_at in *. rewrite E in Eq. inversion Eq; subst q.
    split; [simpl; rewrite Z.eqb_refl; eapply kept_swap; eauto|]. intros _. destruct S as [_ [_ [S1 [S2 _]]]]. auto.
  - simpl in X. apply drop_ok in X. destruct X as [y X].
    assert (Hh : exists d, fget h (w_hop w) = Some d).
    { unfold hop_swap in X. rstep X. winv. eauto. }
    destruct Hh as [d Hh]. apply (C66_multihop_is_its_swaps _ _ _ _ _ _ _ _ _ _ _ _ _ R Hh) in X. destruct X as [_ [_ [_ [_ [ps L]]]]].
    destruct (legs_kept M c H e _ _ _ _ _ Eh PM _ _ _ _ _ _ R L p Hp T1 Ma Mb) as [q [Eq [_ [_ [S1 [S2 S3]]]]]].
    unfold pool_at in *. rewrite E in Eq. inversion Eq; subst q. auto.
  - exfalso. simpl in X. apply drop_ok in X. destruct X as [y X]. eapply C70_trade_never_succeeds; eauto.
  - split; [apply NS; auto|]. intros C. contradiction.
Qed.

(** ** C158 *)
(** Over any history in which the supply of the two tokens stays below [M], n swaps (legs of routes counted) lower
    reserve_a * reserve_b / shares^2 by at most n * M / 1000^2; nothing else lowers it. *)
Theorem C158_share_value_over_history H w l w' c p p' M : reachable H w -> pool_at w c p -> 0 < p_total p ->
  run_if (fun v _ => supply v (p_ta p) <= M /\ supply v (p_tb p) <= M) H w l w' -> pool_at w' c p' ->
  p_ra p * p_rb p * p_total p' ^ 2 * 1000 ^ 2 <=
    p_ra p' * p_rb p' * p_total p ^ 2 * 1000 ^ 2 + total_visits c l * M * p_total p ^ 2 * p_total p' ^ 2.
Proof.
  intros R Hp T Rn Hp'. change (value_kept M (total_visits c l) p p'). revert p R Hp T Rn.
  intros p R Hp T Rn. remember (p_ta p) as ta eqn:Ea. remember (p_tb p) as tb eqn:Eb. revert p R Hp T Ea Eb.
  induction Rn as [w|w e k w1 l w2 St Ok1 Rn IH|w n s w1 l w2 St Rn IH]; intros p R Hp T Ea Eb.
  - unfold pool_at in *. rewrite Hp in Hp'. inversion Hp'; subst p'. pose proof (reach_pool _ _ R _ _ Hp) as I.
    simpl. pose proof (pi_ra _ _ _ I). pose proof (pi_rb _ _ _ I). apply kept_same; lia.
  - assert (R1 : reachable H w1) by (eapply reach_run; [exact R|econstructor; [exact St|constructor]]).
    inversion St as [e0 k0 w0 Eh X|]; subst. destruct Ok1 as [Ma Mb].
    destruct (one_tx _ _ _ _ _ _ _ M R eq_refl X Hp T Ma Mb) as [q [Eq [A [B [T1 [V _]]]]]].
    assert (R2 : reachable (e_hash e) w2) by (eapply reach_run; [exact R1|eapply run_if_run; exact Rn]).
    pose proof (reach_pool _ _ R2 _ _ Hp') as I2.
    simpl. eapply kept_trans; [exact T1|lia| |exact V|apply (IH Hp' q R1 Eq); [lia|congruence..]]. destruct (pi_min _ _ _ I2); lia.
  - assert (R1 : reachable H w1) by (eapply reach_run; [exact R|econstructor; [exact St|constructor]]).
    inversion St; subst. simpl. eapply IH; eauto.
Qed.
Print Assumptions C158_share_value_over_history.

(** calls other than deposits, withdrawals and swaps leave reserves and shares alone *)
Definition moves_liquidity (c : Addr) (k : Call) : Prop :=
  match k with CPoolProvide q _ _ _ _ _ _ _ | CPoolWithdraw q _ _ _ _ _ => q = c | _ => False end.
Lemma pool_idle H w e k w' c p : reachable H w -> pool_at w c p -> exec e k w = Ok (tt, w') -> ~ may_swap c k -> ~ moves_liquidity c k ->
  exists p', pool_at w' c p' /\ p_total p' = p_total p /\ p_ra p' = p_ra p /\ p_rb p' = p_rb p.
Proof.
  intros R Hp X NS NL. pose proof (reach_good _ _ R) as G. pose proof (gd_cpool _ G _ _ Hp) as Hc.
  destruct (exec_framec _ _ _ _ X G) as [G' [X' [_ [_ U]]]].
  destruct (exists_dec_acts k c KPool) as [[T|[T _]]|N].
  2:{ exfalso. apply NS. destruct k; simpl in *; try discriminate T; auto. }
  2:{ exists p. split; [unfold pool_at; rewrite (ut_pool _ _ _ (U _ _ Hc N)); exact Hp|auto]. }
  pose proof (exec_tkind _ _ _ _ _ X T) as TK. rewrite Hc in TK.
  destruct k; simpl in T, TK; inversion T; try discriminate TK; subst; simpl in X;
      try (apply drop_ok in X; destruct X as [r X]); try (exfalso; apply NS; reflexivity); try (exfalso; apply NL; reflexivity).
  - apply pool_initialize_ok in X. destruct X as [_ [Np _]]. unfold pool_at in Hp. congruence.
  - unfold pool_update_config in X. rstep X. winv.
    match goal with K : fget c (w_pool w) = Some ?q |- _ => unfold pool_at in Hp; rewrite Hp in K; inversion K; subst q end.
    eexists. split; [unfold pool_at; simpl; rewrite fget_set_same; reflexivity|auto].
  - apply pool_update_ok in X. subst w'. eauto.
  - unfold pool_upgrade in X. rstep X. winv.
    match goal with K : fget c (w_pool w) = Some ?q |- _ => unfold pool_at in Hp; rewrite Hp in K; inversion K; subst q end.
    eexists. split; [unfold pool_at; simpl; rewrite fget_set_same; reflexivity|auto].
Qed.

(** Without deposits and withdrawals the number of shares stays and the product of the reserves never rises: the fee of
    a swap leaves the pool for its recipient, so trading adds nothing to the value of a share. *)
Theorem C158_trading_adds_nothing H w l w' c p p' : reachable H w -> pool_at w c p -> 0 < p_total p ->
  run_if (fun _ k => ~ moves_liquidity c k) H w l w' -> pool_at w' c p' ->
  p_total p' = p_total p /\ p_ra p' * p_rb p' <= p_ra p * p_rb p.
Proof.
  intros R Hp T Rn Hp'. revert p R Hp T.
  induction Rn as [w|w e k w1 l w2 St Ok1 Rn IH|w n s w1 l w2 St Rn IH]; intros p R Hp T.
  - unfold pool_at in *. rewrite Hp in Hp'. inversion Hp'; subst p'. lia.
  - assert (R1 : reachable H w1) by (eapply reach_run; [exact R|econstructor; [exact St|constructor]]).
    inversion St as [e0 k0 w0 Eh X|]; subst.
    assert (Q : exists q, pool_at w1 c q /\ p_total q = p_total p /\ p_ra q * p_rb q <= p_ra p * p_rb p).
    { assert (D : may_swap c k \/ ~ may_swap c k).
      { destruct k; simpl; try tauto. destruct (Z.eq_dec p0 c); tauto. }
      destruct D as [D|D].
      - destruct (one_tx _ _ _ _ _ _ _ (Z.max (supply w (p_ta p)) (supply w (p_tb p))) R eq_refl X Hp T ltac:(lia) ltac:(lia))
          as [q [Eq [_ [_ [_ [_ S]]]]]]. exists q. split; [exact Eq|auto].
      - destruct (pool_idle _ _ _ _ _ _ _ R Hp X D Ok1) as [q [Eq [A [B C]]]]. exists q. split; [exact Eq|]. split; [exact A|]. rewrite B, C. lia. }
    destruct Q as [q [Eq [A B]]]. destruct (IH Hp' q R1 Eq ltac:(lia)) as [A' B']. split; [congruence|lia].
  - assert (R1 : reachable H w1) by (eapply reach_run; [exact R|econstructor; [exact St|constructor]]).
    inversion St; subst. eapply IH; eauto.
Qed.
Print Assumptions C158_trading_adds_nothing.
