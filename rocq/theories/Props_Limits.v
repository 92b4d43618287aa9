(** What the limits given with a swap guarantee: C258, C259. *)
From Coq Require Import ZArith List Bool Lia.
From Coq Require Import ZifyBool.
From Verif Require Import Base FMap Decimal DecimalProofs Curve World Token TokenProofs Frame Stake Pool PoolProofs
  Stable StableProofs Rewards Vest Factory Router System SysFrame SysInv SysPool SysStable SysSupply Script
  Props_Token Props_Pool Props_PoolCases Props_Stable Props_StableCases Props_Market.
Import ListNotations.
Open Scope Z_scope.

(** ** Arithmetic *)
Lemma limits_pay (gross ret fee rate spot s f : Z) : 0 < gross -> 0 <= ret -> 0 <= spot -> 0 <= s -> gross = ret + fee ->
  fee = gross * rate / 10000 -> rate <= f -> (spot - gross) * 10^18 < (s * 10^14 + 1) * gross ->
  spot * 10^18 * (10000 - f) <= ret * 10000 * (10^18 + s * 10^14 + 1).
Proof.
  intros Pg Pr Ps Pl Eg Ef Lf Ls.
  assert (Q : gross * rate / 10000 * 10000 <= gross * rate) by (rewrite Z.mul_comm; apply Z.mul_div_le; lia).
  assert (Rt : gross * (10000 - f) <= ret * 10000) by nia.
  destruct (Z.le_gt_cases 10000 f) as [B|B]; [nia|].
  set (L := 10 ^ 18 + s * 10 ^ 14 + 1). assert (PL : 0 < L) by (unfold L; lia).
  assert (G : spot * 10 ^ 18 <= gross * L) by (unfold L; lia).
  apply Z.le_trans with (gross * L * (10000 - f)); [apply Z.mul_le_mono_nonneg_r; lia|].
  replace (gross * L * (10000 - f)) with (gross * (10000 - f) * L) by ring. apply Z.mul_le_mono_nonneg_r; lia.
Qed.

(** ** C258 *)
(** Whoever swaps with a spread limit of [s] and a commission limit of [f] (in hundredths of a percent) gets at least the
    value at the price before the swap, divided by 1 + s and less the part f, whatever the admin has set. *)
Theorem C258_limits_bound_the_loss H w e c self u offer amt mi s dl f ret w' p x y buy : reachable H w -> u <> self ->
  pool_at w self p -> side p offer x y buy ->
  pool_swap e c self u offer amt mi (Some s) dl (Some f) w = Ok (ret, w') ->
  amt * y / x * 10^18 * (10000 - f) <= (bal w' buy u - bal w buy u) * 10000 * (10^18 + s * 10^14 + 1).
Proof.
  intros R Ns Hp Sd X. destruct (swap_facts _ _ _ _ _ _ _ _ _ _ _ _ _ Ns X) as [q [p' [x1 [y1 [g [fe [sp [b F]]]]]]]].
  pose proof (sf_before F) as B. unfold pool_at in *. rewrite Hp in B. injection B as <-.
  destruct (side_fun _ _ _ _ _ _ _ _ Sd (sf_side F)) as [<- [<- <-]].
  pose proof (sf_pos F) as P. destruct (sf_spread F) as [Es Ps]. pose proof (sf_limit F) as Lm. cbv [opt_or] in Lm.
  pose proof (sf_ms F _ eq_refl). pose proof (sf_mf F _ eq_refl). pose proof (sf_gross F) as Eg. pose proof (sf_fee F) as Ef.
  assert (Nb : buy <> offer) by (destruct (C06_pool_solvency _ _ _ _ R Hp) as [_ [_ N]]; destruct Sd as [[-> [-> _]]|[-> [N2 [-> _]]]]; auto).
  assert (Rc : ret <= bal w' buy u - bal w buy u).
  { rewrite (sf_bal F). unfold on. destruct (Z.eqb_spec buy offer); [contradiction|]. rewrite !Z.eqb_refl.
    destruct (Z.eqb_spec u self); [contradiction|]. cbn [andb]. destruct (u =? p_feerec p); lia. }
  assert (Sp : 0 <= amt * y / x) by (apply Z.div_pos; [apply Z.mul_nonneg_nonneg|]; lia).
  eapply Z.le_trans; [eapply (limits_pay g ret fe (p_fee p) (amt * y / x) s f); try eassumption; try lia|].
  apply Z.mul_le_mono_nonneg_r; lia.
Qed.
Print Assumptions C258_limits_bound_the_loss.

(** In a stable pool the value is the offered amount itself. *)
Theorem C258_limits_bound_the_loss_stable H w e c self u offer amt mi s dl f ret w' p x y buy : reachable H w -> u <> self -> c <> Some self ->
  stable_at w self p -> lside p offer x y buy ->
  stable_swap e c self u offer amt mi (Some s) dl (Some f) w = Ok (ret, w') ->
  amt * 10^18 * (10000 - f) <= (bal w' buy u - bal w buy u) * 10000 * (10^18 + s * 10^14 + 1).
Proof.
  intros R Ns Nc Hp Sd X.
  destruct (C30_stable_swap _ _ _ _ _ _ _ _ _ _ _ _ _ _ R Nc X)
    as [q [p' [x1 [y1 [g [fe [b [B [_ [Sd1 [_ [Eg [Ef [Pa [Pg [Pr [Pf [_ [_ [_ [Bal [_ [_ [_ [_ [Lf [Ls Lm]]]]]]]]]]]]]]]]]]]]]]]]]]].
  unfold stable_at in *. rewrite Hp in B. injection B as <-. cbv zeta in Lm. specialize (Lf _ eq_refl). specialize (Ls _ eq_refl).
  assert (Nt : l_ta p <> l_tb p) by apply (C27_stable_solvency _ _ _ _ R Hp).
  assert (Eb : b = buy) by (destruct Sd as [[? [? _]]|[? [? [? _]]]], Sd1 as [[? [? _]]|[? [? [? _]]]]; congruence). subst b.
  assert (Nb : buy <> offer) by (destruct Sd as [[-> [-> _]]|[-> [N2 [-> _]]]]; auto).
  assert (Rc : ret <= bal w' buy u - bal w buy u).
  { rewrite Bal. unfold on. destruct (Z.eqb_spec buy offer); [contradiction|]. rewrite !Z.eqb_refl.
    destruct (Z.eqb_spec u self); [contradiction|]. cbn [andb]. destruct (u =? l_feerec p); lia. }
  eapply Z.le_trans; [eapply (limits_pay g ret fe (l_fee p) amt s f); try eassumption; lia|].
  apply Z.mul_le_mono_nonneg_r; lia.
Qed.
Print Assumptions C258_limits_bound_the_loss_stable.

(** ** Cases: 50000 units, 10% and 30 hundredths of a percent; the price before the swap is two *)
Definition lm1 : World := after (pool_swap (env_of [-4]) None 10 (-4) 1 50000 None (Some 1000) None (Some 30) xW).
Definition lm2 : World := after (stable_swap (env_of [-4]) None 20 (-4) 1 50000 None (Some 100) None (Some 30) yW).
Definition lmP : Stable := match fget 20 (w_stable yW) with Some p => p | None => yP 0 0 0 end.
Example C258_example : reachable xH xW /\ pool_at xW 10 xP /\ side xP 1 1000000 2000000 2 /\
  pool_swap (env_of [-4]) None 10 (-4) 1 50000 None (Some 1000) None (Some 30) xW = Ok (94954, lm1) /\
  bal lm1 2 (-4) - bal xW 2 (-4) = 94954.
Proof.
  split; [apply xW_reach|]. split; [vm_compute; reflexivity|]. split; [left; vm_compute; auto|].
  split; vm_compute; reflexivity.
Qed.
Example C258_stable_example : reachable xH yW /\ stable_at yW 20 lmP /\ lside lmP 1 (10^7) (10^7) 2 /\
  stable_swap (env_of [-4]) None 20 (-4) 1 50000 None (Some 100) None (Some 30) yW = Ok (49816, lm2) /\
  bal lm2 2 (-4) - bal yW 2 (-4) = 49816.
Proof.
  split; [apply world_reach; vm_compute; reflexivity|]. split; [vm_compute; reflexivity|].
  split; [left; vm_compute; auto|]. split; vm_compute; reflexivity.
Qed.

(** ** C259: the spread limit alone does not protect from anybody. Without a commission limit, a call that nobody has
    signed (the stable pool takes the name of its admin for a signature, C32) makes the commission of the next swap
    the whole amount, and the caller its recipient: the swap with a spread limit of one percent pays nothing. *)
Definition lmC : list Act := ysetup 30 1000 ++ yfund (10^7) (10^7) ++ [Do [] (CStableConfig 20 (-1) None (Some 10000) (Some (-7)) None None)].
Theorem C259_spread_limit_bounds_the_loss_refuted :
  ~ (forall H w e0 k w1 e self u offer amt s dl r0 w0' r w', reachable H w -> (forall a, authed e0 None a = false) ->
       exec e0 k w = Ok (tt, w1) ->
       stable_swap e None self u offer amt None (Some s) dl None w = Ok (r0, w0') ->
       stable_swap e None self u offer amt None (Some s) dl None w1 = Ok (r, w') -> s <= 100 -> r0 <= 2 * r).
Proof.
  intros T. assert (Q : 49816 <= 2 * 0); [|lia].
  apply (T xH yW (env_of []) (CStableConfig 20 (-1) None (Some 10000) (Some (-7)) None None) (world_of lmC) (env_of [-4]) 20 (-4) 1 50000 100 None 49816
    (after (stable_swap (env_of [-4]) None 20 (-4) 1 50000 None (Some 100) None None yW)) 0
    (after (stable_swap (env_of [-4]) None 20 (-4) 1 50000 None (Some 100) None None (world_of lmC)))).
  - apply world_reach. vm_compute. reflexivity.
  - intros a. unfold authed, signs. simpl. rewrite ?andb_false_r. reflexivity.
  - vm_compute. reflexivity.
  - vm_compute. reflexivity.
  - vm_compute. reflexivity.
  - discriminate.
Qed.
Print Assumptions C259_spread_limit_bounds_the_loss_refuted.
