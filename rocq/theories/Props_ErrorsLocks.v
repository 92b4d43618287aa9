(** C241: the error codes of the vesting contract, the stake contract and the reward contract tell what was wrong. *)
From Coq Require Import ZArith List Bool Lia.
From Coq Require Import ZifyBool.
From Verif Require Import Base FMap Decimal DecimalProofs Curve CurveProofs World Token TokenProofs Frame Stake Pool PoolProofs
  Stable StableProofs Rewards Vest Factory Router System SysFrame SysInv SysPool SysStable SysSupply SysVest Script ErrProofs
  Props_Token Props_Pool Props_Stake Props_Rewards Props_Vest Props_Errors.
Import ListNotations.
Open Scope Z_scope.

(** the passed conversion or check *)
Ltac lft Q := match goal with Rq : mlift _ _ = Ok _ |- _ => apply mlift_ok2 in Rq; destruct Rq as [Q Rq]; inversion Rq; subst; clear Rq end.
Ltac gtt := match goal with Rq : mget _ = Ok _ |- _ => unfold mget in Rq; inversion Rq; subst; clear Rq end.
Ltac grd Q := match goal with Rq : mguard _ _ _ = Ok _ |- _ => apply mguard_ok in Rq; destruct Rq as [Q Rq]; inversion Rq; subst; clear Rq end.

(** the record read is the one the claim is about *)
Ltac mine Pa := lazymatch type of Pa with ?l = Some ?v => match goal with Rq : l = Some ?q |- _ =>
  tryif constr_eq q v then fail else (let Eq := fresh in assert (Eq : q = v) by congruence; subst q; clear Rq) end end.

(** ** Functions without codes of their own *)
Lemma rq_interp a b c d x : rquiet (interpolate a b c d x). Proof. unfold interpolate; qt. Qed.
#[global] Hint Resolve rq_interp : quiet.
Lemma rq_pl_loop x l : forall p, rquiet (pl_loop p l x).
Proof. induction l as [|a l IH]; intros p; simpl; [qt|]. destruct (x <? fst a); [apply rq_interp|apply IH]. Qed.
#[global] Hint Resolve rq_pl_loop : quiet.
Lemma rq_pl_value s x : rquiet (pl_value s x). Proof. unfold pl_value. qt. Qed.
Lemma rq_sl_value a b c d x : rquiet (sl_value a b c d x). Proof. unfold sl_value. qt. Qed.
#[global] Hint Resolve rq_pl_value rq_sl_value : quiet.
Lemma rq_cvalue c x : rquiet (cvalue c x). Proof. unfold cvalue. destruct c; qt. Qed.
Lemma rq_shift k s : rquiet (shift_steps k s).
Proof. induction s as [|[a b] s IH]; simpl; [qt|]. apply rq_bind; [qt|intro]. apply rq_bind; [exact IH|intro; qt]. Qed.
Lemma rq_comb_at p q l : rquiet (combine_at p q l).
Proof.
  induction l as [|a l IH]; simpl; [qt|]. apply rq_bind; [qt|intro]. apply rq_bind; [qt|intro]. apply rq_bind; [qt|intro].
  apply rq_bind; [exact IH|intro; qt].
Qed.
#[global] Hint Resolve rq_cvalue rq_shift rq_comb_at : quiet.
Lemma rq_combine c d : rquiet (combine c d). Proof. unfold combine, pl_combine. destruct c, d; simpl; qt. Qed.
#[global] Hint Resolve rq_combine : quiet.

Lemma rq_power r s : rquiet (calc_power r s). Proof. unfold calc_power. qt. Qed.
Lemma rq_update r u a b : rquiet (update_rewards r u a b). Proof. unfold update_rewards. qt. Qed.
#[global] Hint Resolve rq_power rq_update : quiet.
Lemma rq_withdrawable r t a : rquiet (withdrawable r t a). Proof. unfold withdrawable. qt. Qed.
Lemma rq_weigh t l : forall a b, rquiet (weigh t l a b).
Proof.
  induction l as [|k l IH]; intros a b; simpl; [qt|]. apply rq_bind; [qt|intro]. cbv zeta. do 5 (apply rq_bind; [qt|intro]). apply IH.
Qed.
#[global] Hint Resolve rq_withdrawable rq_weigh : quiet.
Lemma rq_wpower t l : rquiet (withdraw_power t l). Proof. unfold withdraw_power. qt. Qed.
#[global] Hint Resolve rq_wpower : quiet.
Lemma rq_reward r t u b : rquiet (reward_now r t u b). Proof. unfold reward_now. qt. Qed.
#[global] Hint Resolve rq_reward : quiet.
Lemma q_rquery s u b : quiet (rewards_query s u b). Proof. unfold rewards_query. qt. Qed.
Lemma q_rwithdraw e c s u b : quiet (rewards_withdraw e c s u b). Proof. unfold rewards_withdraw. qt. Qed.
#[global] Hint Resolve q_rquery q_rwithdraw : quiet.

Lemma rq_share k d a t : rquiet (stake_share k d a t). Proof. unfold stake_share. qt. Qed.
#[global] Hint Resolve rq_share : quiet.
Lemma rq_day d a t l : forall acc, rquiet (day_rewards l d a t acc).
Proof. induction l as [|k l IH]; intros acc; simpl; [qt|]. do 2 (apply rq_bind; [qt|intro]). apply IH. Qed.
#[global] Hint Resolve rq_day : quiet.
Lemma rq_days rh tsh l ds : forall acc, rquiet (pend_days ds rh tsh l acc).
Proof. induction ds as [|d ds IH]; intros acc; simpl; [qt|]. apply rq_bind; [qt|intro]. apply IH. Qed.
#[global] Hint Resolve rq_days : quiet.
Lemma rq_pending s t a b : rquiet (pending_rewards s t a b). Proof. unfold pending_rewards. qt. Qed.
#[global] Hint Resolve rq_pending : quiet.
Lemma q_pay e self u s t b l : quiet (pay_rewards e self u s t b l).
Proof. induction l as [|a l IH]; simpl; [qt|]. do 2 (apply q_bind; [qt|intro]). apply IH. Qed.
#[global] Hint Resolve q_pay : quiet.

(** ** C241: the vesting contract *)
(** what a schedule never releases: its value at the end *)
Definition left_locked (c : curve) (v : Z) : Prop :=
  match c with
  | Constant y => v = y
  | SatLin _ _ _ e => v = e
  | PieceLin s => exists s0 t, s = s0 ++ [(t, v)]
  end.

Lemma zmem_in a l : zmem a l = true <-> In a l.
Proof.
  unfold zmem. rewrite existsb_exists. split.
  - intros [b [I E]]. apply Z.eqb_eq in E. subst. exact I.
  - intros I. exists a. split; [exact I|apply Z.eqb_refl].
Qed.
Lemma no_dup_false l : no_dup l = false -> ~ NoDup l.
Proof.
  induction l as [|a l IH]; simpl; intros E; [discriminate|]. intros N. inversion N as [|? ? Ni N']; subst.
  apply andb_false_iff in E. destruct E as [E|E]; [|exact (IH E N')]. apply negb_false_iff in E. apply zmem_in in E. exact (Ni E).
Qed.

Lemma schedule_err c n : validate_schedule c = Err (EContract n) ->
  (n = 29 /\ exists y, c = Constant y) \/ (n = 14 /\ exists y, left_locked c y /\ y <> 0).
Proof.
  unfold validate_schedule. destruct (validate_dec c); [discriminate|]. destruct c as [y|a b d f|s]; intros X.
  - inversion X; subst. left; eauto.
  - destruct (Z.eqb_spec f 0); inversion X; subst. right. split; [reflexivity|]. exists f. split; [reflexivity|exact n0].
  - unfold pl_end_value, pl_first_value in X. destruct s as [|q s]; [discriminate|].
    destruct (Z.eqb_spec (snd (last (q :: s) q)) 0); inversion X; subst. right. split; [reflexivity|].
    exists (snd (last (q :: s) q)). split; [|exact n0]. unfold left_locked. exists (removelast (q :: s)), (fst (last (q :: s) q)).
    rewrite <- surjective_pairing. apply app_removelast_last. discriminate.
Qed.

Lemma create_all_err l n : forall v tot, create_all v l tot = Err (EContract n) -> exists u c, In (u, c) l /\
  ((n = 29 /\ exists y, c = Constant y) \/ (n = 14 /\ exists y, left_locked c y /\ y <> 0) \/ (n = 8 /\ v_maxc v <= csize c)).
Proof.
  induction l as [|[u c] l IH]; intros v tot X; unfold create_all in X; fold create_all in X; [discriminate|].
  est X; [|est X; [est X|est X]].
  - exists u, c. split; [left; reflexivity|]. apply schedule_err in X. destruct X as [X|X]; auto.
  - exists u, c. split; [left; reflexivity|]. right; right. split; [reflexivity|lia].
  - apply IH in X. destruct X as (u' & c' & I & D). exists u', c'. split; [right; exact I|exact D].
Qed.

Theorem C241_vesting_claim_errors w e self u i v n : vest_at w self v ->
  exec e (CVestClaim self u i) w = Err (EContract n) ->
  (* VestingNotFoundForAddress *) (n = 1 /\ no_entry w self u i) \/
  (* NeverFullyVested *) (n = 14 /\ exists x, entry_at w self u i x /\ cvalue (vi_sched x) (w_now w) = Ok (vi_bal x)).
Proof.
  intros Pa X. unfold exec in X. cbn beta iota in X. unfold vest_at in Pa. unfold vest_claim in X.
  unfold vest_at in Pa. ew X. ew X. ew X. mine Pa. ew X.
  apply mbind_err in X. destruct X as [X|(av & w1 & Rz & X)]; [|cbv beta in X].
  { apply mlift_err in X. unfold available in X. est X; [|noq X]. unfold v_get in X. est X. left. split; [reflexivity|].
    intros xx Ex. apply (entry_iff _ _ _ _ _ _ Pa) in Ex. congruence. }
  lft Av. unfold available in Av.
  apply rbind_ok in Av. destruct Av as (y & Gx & Av). apply rbind_ok in Av. destruct Av as (lk & Cv & Av).
  apply rbind_ok in Av. destruct Av as (d & Sd & Av). unfold v_get in Gx.
  assert (Gx' : fget i (v_entries v u) = Some y) by (destruct (fget i (v_entries v u)); simpl in Gx; inversion Gx; reflexivity).
  assert (Ex : entry_at w self u i y) by (apply (entry_iff _ _ _ _ _ _ Pa); exact Gx').
  assert (D0 : d = vi_bal y - lk /\ 0 <= d) by (apply sub_u_ok in Sd; lia).
  assert (D1 : av = d) by (apply u2i_ok in Av; apply Av).
  subst av. destruct D0 as [-> Pd].
  est X; [est X; right; split; [reflexivity|]; exists y; split; [exact Ex|]; rewrite Cv; f_equal; lia|].
  exfalso. grd Pos.
  unfold v_get in X. rewrite Gx' in X.
  est X; [discriminate X|]. lft Q0. inversion Q0; subst.
  est X. lft Q1. rewrite Cv in Q1. inversion Q1; subst.
  est X; [est X; lia|]. grd Gq.
  est X. lft Q2. apply i2u_ok in Q2. destruct Q2 as [-> _].
  est X; [est X; lia|]. noq X.
Qed.
Print Assumptions C241_vesting_claim_errors.

Theorem C241_vesting_create_errors w e self l v n : vest_at w self v ->
  exec e (CVestCreate self l) w = Err (EContract n) ->
  (* MissingBalance *) (n = 7 /\ l = []) \/
  (* DuplicateInitialBalanceAddresses *) (n = 19 /\ ~ NoDup (map fst l)) \/
  (* NoEnoughtTokensToStart *) (n = 25 /\ bal w (v_token v) (v_admin v) < sum_start l) \/
  exists u c, In (u, c) l /\
    ((* CurveConstant *) (n = 29 /\ exists y, c = Constant y) \/
     (* NeverFullyVested *) (n = 14 /\ exists y, left_locked c y /\ y <> 0) \/
     (* VestingComplexityTooHigh *) (n = 8 /\ v_maxc v <= csize c)).
Proof.
  intros Pa X. unfold exec in X. cbn beta iota in X. unfold vest_create in X.
  unfold vest_at in Pa. ew X. ew X. ew X. mine Pa. ew X.
  est X; [est X; left; split; [reflexivity|destruct l; [reflexivity|discriminate X]]|]. rin.
  est X; [est X; right; left; split; [reflexivity|apply no_dup_false; exact X]|]. rin.
  est X; [apply mlift_err in X; right; right; right; exact (create_all_err _ _ _ _ X)|].
  lft Cr. destruct x as [v' tot].
  est X. est X. est X; [est X|noq X].
  right; right; left. split; [reflexivity|].
  match goal with T : forallb _ _ = true |- _ => pose proof (create_all_total _ _ _ _ _ Cr T) as Tt end. simpl in Tt.
  rin. unfold bal in *. lia.
Qed.
Print Assumptions C241_vesting_create_errors.

Theorem C241_vesting_other_errors w e self v n : vest_at w self v ->
  (forall a t mc m, exec e (CVestInit self a t mc m) w = Err (EContract n) -> (* AlreadyInitialized *) n = 31) /\
  (forall u amt, exec e (CVestBurn self u amt) w = Err (EContract n) -> (* InvalidBurnAmount *) n = 16 /\ amt = 0) /\
  (forall u amt, exec e (CVestMint self u amt) w = Err (EContract n) ->
     (* InvalidMintAmount *) (n = 17 /\ amt <= 0) \/
     (* MinterNotFound *) (n = 3 /\ v_minter v = None) \/
     exists m cap, v_minter v = Some (m, cap) /\
       ((* NotAuthorized *) (n = 13 /\ u <> m) \/ (* NotEnoughCapacity *) (n = 12 /\ u = m /\ cap < amt))) /\
  (forall u new, exec e (CVestMinter self u new) w = Err (EContract n) ->
     (* NotAuthorized *) n = 13 /\ match v_minter v with Some (m, _) => u <> m | None => u <> v_admin v end) /\
  (forall u cap, exec e (CVestCapacity self u cap) w = Err (EContract n) ->
     (* NotAuthorized *) (n = 13 /\ u <> v_admin v) \/ (* MinterNotFound *) (n = 3 /\ u = v_admin v /\ v_minter v = None)) /\
  (forall h, exec e (CVestUpdate self h) w <> Err (EContract n)).
Proof.
  intros Pa. unfold vest_at in Pa. unfold exec. cbn beta iota.
  split; [|split; [|split; [|split; [|split]]]].
  - intros a t mc m X. unfold vest_initialize in X. ew X. est X. est X; [est X; reflexivity|noq X].
  - intros u amt X. unfold vest_burn in X. ew X. ew X. est X; [est X; split; [reflexivity|lia]|noq X].
  - intros u amt X. unfold vest_mint in X. ew X. ew X. est X; [est X; left; split; [reflexivity|lia]|]. rin.
    ew X. mine Pa. est X; [est X; est X; right; left; auto|]. lft Q.
    right; right. destruct (v_minter v) as [[m cap]|] eqn:Em; simpl in Q; inversion Q; subst. exists m, cap. split; [reflexivity|].
    simpl in X. est X; [est X; left; split; [reflexivity|lia]|]. rin.
    est X. lft Q2. apply i2u_ok in Q2. destruct Q2 as [-> _].
    est X; [est X; right; repeat split; lia|noq X].
  - intros u new X. unfold vest_update_minter in X. ew X. ew X. ew X. mine Pa.
    est X; [est X; split; [reflexivity|]|noq X]. destruct (v_minter v) as [[m cap]|]; simpl in X; lia.
  - intros u cap X. unfold vest_update_capacity in X. ew X. ew X. ew X. mine Pa.
    est X; [est X; left; split; [reflexivity|lia]|]. rin. est X; [est X; est X; right; repeat split; [lia|exact X]|noq X].
  - intros h X. unfold vest_update in X. noq X.
Qed.
Print Assumptions C241_vesting_other_errors.

(** ** C241: the stake contract *)
Lemma remove_err l amt ts n : remove_stake l amt ts = Err (EContract n) ->
  n = 8 /\ forall k, In k l -> ~ (k_amt k = amt /\ k_ts k = ts).
Proof.
  induction l as [|k l IH]; simpl; intros X; [inversion X; subst; split; [reflexivity|intros k []]|].
  destruct ((k_amt k =? amt) && (k_ts k =? ts)) eqn:E; [discriminate|]. est X; [|discriminate X].
  destruct (IH X) as [-> N]. split; [reflexivity|]. intros q [->|I]; [lia|exact (N _ I)].
Qed.

Theorem C241_stake_errors w e self s n : stake_at w self s ->
  (forall a lp mb mr m o mc, exec e (CStakeInit self a lp mb mr m o mc) w = Err (EContract n) -> (* AlreadyInitialized *) n = 1) /\
  (forall u amt, exec e (CBond self u amt) w = Err (EContract n) -> (* InvalidBond *) n = 4 /\ amt < s_minbond s) /\
  (forall u amt ts, exec e (CUnbond self u amt ts) w = Err (EContract n) ->
     (* StakeNotFound *) n = 8 /\ forall b, fget u (s_users s) = Some b -> ~ In (mkStakeE amt ts) (b_stakes b)) /\
  (forall u a, exec e (CFlow self u a) w = Err (EContract n) ->
     (* Unauthorized *) (n = 5 /\ u <> s_manager s /\ u <> s_owner s) \/
     (* DistributionExists *) (n = 10 /\ In a (s_dists s))) /\
  (forall u amt t, exec e (CDistribute self u amt t) w = Err (EContract n) ->
     (* Unauthorized *) (n = 5 /\ u <> s_manager s /\ u <> s_owner s) \/
     (* DistributionNotFound *) (n = 13 /\ ~ In t (s_dists s))) /\
  (forall u, exec e (CWithdrawRewards self u) w <> Err (EContract n)) /\
  (forall h, exec e (CStakeUpdate self h) w <> Err (EContract n)).
Proof.
  intros Pa. unfold stake_at in Pa. unfold exec. cbn beta iota.
  split; [|split; [|split; [|split; [|split; [|split]]]]].
  - intros a lp mb mr m o mc X. unfold stake_initialize in X. ew X. est X. gtt.
    est X; [est X; reflexivity|]. exfalso. grd G. unfold fmem in G. rewrite Pa in G. discriminate G.
  - intros u amt X. unfold stake_bond in X. ew X. ew X. ew X. mine Pa. est X; [est X; split; [reflexivity|lia]|noq X].
  - intros u amt ts X. unfold stake_unbond in X. ew X. ew X. ew X. mine Pa. cbv zeta in X.
    est X; [|noq X]. apply mlift_err in X. apply remove_err in X. destruct X as [-> N]. split; [reflexivity|].
    intros b Eb I. unfold s_user, fgetd in N. rewrite Eb in N. apply (N _ I). split; reflexivity.
  - intros u a X. unfold stake_create_flow in X. ew X. ew X. ew X. mine Pa.
    est X; [est X; left; split; [reflexivity|lia]|]. est X; [est X; right; split; [reflexivity|]|noq X].
    apply zmem_in. apply negb_false_iff. exact X.
  - intros u amt t X. unfold stake_distribute in X. ew X. ew X. ew X. mine Pa.
    est X; [est X; left; split; [reflexivity|lia]|]. est X; [est X; right; split; [reflexivity|]|noq X].
    intros I. apply zmem_in in I. congruence.
  - intros u X. unfold stake_withdraw_rewards in X. noq X.
  - intros h X. unfold stake_update in X. noq X.
Qed.
Print Assumptions C241_stake_errors.

Theorem C241_stake_init_errors w e self a lp mb mr m o mc n : fget self (w_stake w) = None ->
  exec e (CStakeInit self a lp mb mr m o mc) w = Err (EContract n) ->
  (* InvalidMinBond *) (n = 2 /\ mb <= 0) \/ (* InvalidMinReward *) (n = 3 /\ mr <= 0) \/ (* InvalidMaxComplexity *) (n = 12 /\ mc = 0).
Proof.
  intros Pa X. unfold exec in X. cbn beta iota in X. unfold stake_initialize in X. ew X. est X. gtt.
  est X; [exfalso; est X; unfold fmem in X; rewrite Pa in X; discriminate X|].
  est X; [est X; left; split; [reflexivity|lia]|]. est X; [est X; right; left; split; [reflexivity|lia]|].
  est X; [est X; right; right; split; [reflexivity|lia]|noq X].
Qed.
Print Assumptions C241_stake_init_errors.

(** ** C241: the reward contract *)
Theorem C241_rewards_fund_errors w e self start dur amt r n : rewards_at w self r ->
  exec e (CRewFund self start dur amt) w = Err (EContract n) ->
  (* InvalidTime *) (n = 9 /\ start < w_now w) \/
  (* MinRewardNotEnough *) (n = 6 /\ amt < r_minreward r) \/
  (* InvalidMaxComplexity *) (n = 12 /\ exists k, combine (r_curve r) (SatLin start amt (w_now w + dur) 0) = Ok k /\ r_maxc r < csize k /\
     match cend (r_curve r) with Some t => w_now w <= t | None => True end).
Proof.
  intros Pa X. unfold rewards_at in Pa. unfold exec in X. cbn beta iota in X. unfold rewards_fund in X.
  ew X. ew X. mine Pa. ew X. ew X. ew X.
  est X; [est X; left; split; [reflexivity|lia]|]. rin.
  est X; [est X; right; left; split; [reflexivity|lia]|]. rin.
  right; right.
  est X.
  est X. lft Q1. apply add_64_ok in Q1. destruct Q1 as [-> _].
  est X. lft Q2. apply i2u_ok in Q2. destruct Q2 as [-> Q2].
  cbv zeta in X. unfold crange in X. destruct (Z.ltb_spec amt 0); [lia|].
  est X; [exfalso; est X; lia|]. est X; [|noq X]. apply mlift_err in X.
  assert (C : forall k q, match validate_complexity k q with None => Ok k | Some _ => @Err curve (EContract 12) end = Err (EContract n) ->
    n = 12 /\ q < csize k).
  { intros k q E. unfold validate_complexity in E. destruct (Z.leb_spec (csize k) q); inversion E; auto. }
  destruct (cend (r_curve r)) as [t|].
  - destruct (Z.ltb_spec t (w_now w)); [discriminate|]. est X. apply C in X. destruct X as [-> X]. split; [reflexivity|]. eauto.
  - est X. apply C in X. destruct X as [-> X]. split; [reflexivity|]. eauto.
Qed.
Print Assumptions C241_rewards_fund_errors.

Theorem C241_rewards_other_errors w e self r n : rewards_at w self r ->
  (forall a s t mc mr mb, exec e (CRewInit self a s t mc mr mb) w = Err (EContract n) -> (* AlreadyInitialized *) n = 1) /\
  (forall u b, exec e (CRewAddUser self u b) w <> Err (EContract n)) /\
  (forall u b, exec e (CRewBond self u b) w <> Err (EContract n)) /\
  (forall u b x, exec e (CRewUnbond self u b x) w <> Err (EContract n)) /\
  (forall t, exec e (CRewDistribute self t) w <> Err (EContract n)) /\
  (forall u b, exec e (CRewWithdraw self u b) w <> Err (EContract n)) /\
  (forall h, exec e (CRewUpdate self h) w <> Err (EContract n)).
Proof.
  intros Pa. unfold exec. cbn beta iota.
  split; [|split; [|split; [|split; [|split; [|split]]]]]; intros.
  - unfold rewards_initialize in H. ew H. est H. est H; [est H; reflexivity|noq H].
  - intros X. unfold rewards_add_user in X. noq X.
  - intros X. unfold rewards_bond in X. noq X.
  - intros X. unfold rewards_unbond in X. noq X.
  - intros X. unfold rewards_distribute in X. noq X.
  - intros X. noq X.
  - intros X. unfold rewards_update in X. noq X.
Qed.
Print Assumptions C241_rewards_other_errors.
