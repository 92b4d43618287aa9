(** Every entry point of Touch.v, run on two ledgers that agree on the entries its record lists:
    it succeeds on both or on neither, with the same result and record, and the final ledgers
    agree on the listed entries again. *)
From Coq Require Import ZArith List Bool Lia.
From Verif Require Import Base FMap Decimal Curve World Token Stake Pool Stable Rewards Vest Factory Router System.
From Verif Require Import Touch TouchErase Life TouchCover TouchGrow LifeLemmas TouchLogs Footprint.
Import ListNotations.
Open Scope list_scope.
Open Scope Z_scope.

Section Calls.
Variable F : Addr -> Key -> Prop.
Local Notation sim := (sim F).
Local Notation same_run m := (sim m m (fun _ _ => True)).

Lemma within_cons x D : within F (x :: D) <-> F (x_at x) (x_key x) /\ within F D.
Proof. unfold within; simpl; split; [intros H; split; auto | intros [A B] y [<-|I]; auto]. Qed.
Lemma within_app D1 D2 : within F (D1 ++ D2) <-> within F D1 /\ within F D2.
Proof. unfold within. setoid_rewrite in_app_iff. firstorder. Qed.
Lemma within_nil : within F [].
Proof. intros x []. Qed.
Lemma e_p_ta c p q : poolrel F c p q -> F c YConfig -> p_ta p = p_ta q.
Proof. intros R H. pose proof (pr_config _ _ _ _ R H) as E. unfold pool_config in E. congruence. Qed.
Lemma e_p_tb c p q : poolrel F c p q -> F c YConfig -> p_tb p = p_tb q.
Proof. intros R H. pose proof (pr_config _ _ _ _ R H) as E. unfold pool_config in E. congruence. Qed.
Lemma e_p_share c p q : poolrel F c p q -> F c YConfig -> p_share p = p_share q.
Proof. intros R H. pose proof (pr_config _ _ _ _ R H) as E. unfold pool_config in E. congruence. Qed.
Lemma e_p_stake c p q : poolrel F c p q -> F c YConfig -> p_stake p = p_stake q.
Proof. intros R H. pose proof (pr_config _ _ _ _ R H) as E. unfold pool_config in E. congruence. Qed.
Lemma e_p_fee c p q : poolrel F c p q -> F c YConfig -> p_fee p = p_fee q.
Proof. intros R H. pose proof (pr_config _ _ _ _ R H) as E. unfold pool_config in E. congruence. Qed.
Lemma e_p_feerec c p q : poolrel F c p q -> F c YConfig -> p_feerec p = p_feerec q.
Proof. intros R H. pose proof (pr_config _ _ _ _ R H) as E. unfold pool_config in E. congruence. Qed.
Lemma e_p_maxslip c p q : poolrel F c p q -> F c YConfig -> p_maxslip p = p_maxslip q.
Proof. intros R H. pose proof (pr_config _ _ _ _ R H) as E. unfold pool_config in E. congruence. Qed.
Lemma e_p_maxspread c p q : poolrel F c p q -> F c YConfig -> p_maxspread p = p_maxspread q.
Proof. intros R H. pose proof (pr_config _ _ _ _ R H) as E. unfold pool_config in E. congruence. Qed.
Lemma e_p_maxref c p q : poolrel F c p q -> F c YConfig -> p_maxref p = p_maxref q.
Proof. intros R H. pose proof (pr_config _ _ _ _ R H) as E. unfold pool_config in E. congruence. Qed.
Lemma e_s_lp c p q : stakerel F c p q -> F c YConfig -> s_lp p = s_lp q.
Proof. intros R H. pose proof (kr_config _ _ _ _ R H) as E. unfold stake_config in E. congruence. Qed.
Lemma e_s_minbond c p q : stakerel F c p q -> F c YConfig -> s_minbond p = s_minbond q.
Proof. intros R H. pose proof (kr_config _ _ _ _ R H) as E. unfold stake_config in E. congruence. Qed.
Lemma e_s_minreward c p q : stakerel F c p q -> F c YConfig -> s_minreward p = s_minreward q.
Proof. intros R H. pose proof (kr_config _ _ _ _ R H) as E. unfold stake_config in E. congruence. Qed.
Lemma e_s_manager c p q : stakerel F c p q -> F c YConfig -> s_manager p = s_manager q.
Proof. intros R H. pose proof (kr_config _ _ _ _ R H) as E. unfold stake_config in E. congruence. Qed.
Lemma e_s_owner c p q : stakerel F c p q -> F c YConfig -> s_owner p = s_owner q.
Proof. intros R H. pose proof (kr_config _ _ _ _ R H) as E. unfold stake_config in E. congruence. Qed.
Lemma e_s_maxc c p q : stakerel F c p q -> F c YConfig -> s_maxc p = s_maxc q.
Proof. intros R H. pose proof (kr_config _ _ _ _ R H) as E. unfold stake_config in E. congruence. Qed.
Lemma e_r_staking c p q : rewardsrel F c p q -> F c YConfig -> r_staking p = r_staking q.
Proof. intros R H. pose proof (rr_config _ _ _ _ R H) as E. unfold rewards_config in E. congruence. Qed.
Lemma e_r_token c p q : rewardsrel F c p q -> F c YConfig -> r_token p = r_token q.
Proof. intros R H. pose proof (rr_config _ _ _ _ R H) as E. unfold rewards_config in E. congruence. Qed.
Lemma e_r_maxc c p q : rewardsrel F c p q -> F c YConfig -> r_maxc p = r_maxc q.
Proof. intros R H. pose proof (rr_config _ _ _ _ R H) as E. unfold rewards_config in E. congruence. Qed.
Lemma e_r_minreward c p q : rewardsrel F c p q -> F c YConfig -> r_minreward p = r_minreward q.
Proof. intros R H. pose proof (rr_config _ _ _ _ R H) as E. unfold rewards_config in E. congruence. Qed.
Lemma e_r_minbond c p q : rewardsrel F c p q -> F c YConfig -> r_minbond p = r_minbond q.
Proof. intros R H. pose proof (rr_config _ _ _ _ R H) as E. unfold rewards_config in E. congruence. Qed.
Lemma e_r_spp c p q : rewardsrel F c p q -> F c YDistr -> r_spp p = r_spp q.
Proof. intros R H. pose proof (rr_distr _ _ _ _ R H) as E. unfold distribution in E. congruence. Qed.
Lemma e_r_left c p q : rewardsrel F c p q -> F c YDistr -> r_left p = r_left q.
Proof. intros R H. pose proof (rr_distr _ _ _ _ R H) as E. unfold distribution in E. congruence. Qed.
Lemma e_r_dist c p q : rewardsrel F c p q -> F c YDistr -> r_dist p = r_dist q.
Proof. intros R H. pose proof (rr_distr _ _ _ _ R H) as E. unfold distribution in E. congruence. Qed.
Lemma e_r_wdr c p q : rewardsrel F c p q -> F c YDistr -> r_wdr p = r_wdr q.
Proof. intros R H. pose proof (rr_distr _ _ _ _ R H) as E. unfold distribution in E. congruence. Qed.
Lemma e_f_admin c p q : factrel F c p q -> F c YConfig -> f_admin p = f_admin q.
Proof. intros R H. pose proof (fr_config _ _ _ _ R H) as E. unfold fact_config in E. congruence. Qed.
Lemma e_f_hop c p q : factrel F c p q -> F c YConfig -> f_hop p = f_hop q.
Proof. intros R H. pose proof (fr_config _ _ _ _ R H) as E. unfold fact_config in E. congruence. Qed.
Lemma e_f_lphash c p q : factrel F c p q -> F c YConfig -> f_lphash p = f_lphash q.
Proof. intros R H. pose proof (fr_config _ _ _ _ R H) as E. unfold fact_config in E. congruence. Qed.
Lemma e_f_stakehash c p q : factrel F c p q -> F c YConfig -> f_stakehash p = f_stakehash q.
Proof. intros R H. pose proof (fr_config _ _ _ _ R H) as E. unfold fact_config in E. congruence. Qed.
Lemma e_f_tokhash c p q : factrel F c p q -> F c YConfig -> f_tokhash p = f_tokhash q.
Proof. intros R H. pose proof (fr_config _ _ _ _ R H) as E. unfold fact_config in E. congruence. Qed.
Lemma e_f_white c p q : factrel F c p q -> F c YConfig -> f_white p = f_white q.
Proof. intros R H. pose proof (fr_config _ _ _ _ R H) as E. unfold fact_config in E. congruence. Qed.
Lemma e_f_lpdec c p q : factrel F c p q -> F c YConfig -> f_lpdec p = f_lpdec q.
Proof. intros R H. pose proof (fr_config _ _ _ _ R H) as E. unfold fact_config in E. congruence. Qed.
Lemma e_v_token c p q : vestrel F c p q -> F c YInst -> v_token p = v_token q.
Proof. intros R H. pose proof (vr_inst _ _ _ _ R H) as E. unfold vest_inst in E. congruence. Qed.
Lemma e_v_maxc c p q : vestrel F c p q -> F c YInst -> v_maxc p = v_maxc q.
Proof. intros R H. pose proof (vr_inst _ _ _ _ R H) as E. unfold vest_inst in E. congruence. Qed.
Lemma e_v_minter c p q : vestrel F c p q -> F c YInst -> v_minter p = v_minter q.
Proof. intros R H. pose proof (vr_inst _ _ _ _ R H) as E. unfold vest_inst in E. congruence. Qed.
Lemma e_t_admin c p q : tokrel F c p q -> F c YInst -> t_admin p = t_admin q.
Proof. intros R H. pose proof (tr_inst _ _ _ _ R H) as E. unfold token_inst in E. congruence. Qed.
Lemma e_t_dec c p q : tokrel F c p q -> F c YInst -> t_dec p = t_dec q.
Proof. intros R H. pose proof (tr_inst _ _ _ _ R H) as E. unfold token_inst in E. congruence. Qed.
Lemma e_t_allow c p q : tokrel F c p q -> F c YInst -> t_allow p = t_allow q.
Proof. intros R H. pose proof (tr_inst _ _ _ _ R H) as E. unfold token_inst in E. congruence. Qed.
Lemma e_s_user c p q u : stakerel F c p q -> F c (YUser u) -> s_user p u = s_user q u.
Proof. intros R H. unfold s_user, fgetd. rewrite (kr_users _ _ _ _ R u H). reflexivity. Qed.
Lemma e_r_adj_of c p q u : rewardsrel F c p q -> F c (YAdj u) -> r_adj_of p u = r_adj_of q u.
Proof. intros R H. unfold r_adj_of, fgetd. rewrite (rr_adj _ _ _ _ R u H). reflexivity. Qed.
Lemma e_v_get c p q u i : vestrel F c p q -> F c (YVest u i) -> v_get p u i = v_get q u i.
Proof. intros R H. unfold v_get. rewrite (vr_ent _ _ _ _ R u i H). reflexivity. Qed.
Lemma e_available c p q u i t : vestrel F c p q -> F c (YVest u i) -> available p t u i = available q t u i.
Proof. intros R H. unfold available. rewrite (e_v_get _ _ _ _ _ R H). reflexivity. Qed.
Lemma e_power c p q x : rewardsrel F c p q -> F c YConfig -> calc_power p x = calc_power q x.
Proof. intros R H. unfold calc_power. rewrite (e_r_minbond _ _ _ R H). reflexivity. Qed.
Lemma e_reward_now c p q t u b : rewardsrel F c p q -> F c YConfig -> F c YDistr -> F c (YAdj u) -> reward_now p t u b = reward_now q t u b.
Proof.
  intros R H D A. unfold reward_now, withdrawable. rewrite (e_r_adj_of _ _ _ _ R A), (e_power _ _ _ _ R H), (e_r_spp _ _ _ R D). reflexivity.
Qed.
Lemma e_d_ta c p q : traderrel F c p q -> F c YTPair -> d_ta p = d_ta q.
Proof. intros R H. apply (dr_pair _ _ _ _ R H). Qed.
Lemma e_d_tb c p q : traderrel F c p q -> F c YTPair -> d_tb p = d_tb q.
Proof. intros R H. apply (dr_pair _ _ _ _ R H). Qed.

Lemma e_w_stake c w1 w2 : Rw F w1 w2 -> F c YInst -> fmem c (w_stake w1) = fmem c (w_stake w2).
Proof. intros W H. pose proof (rw_same _ _ _ W _ _ H) as Z. simpl in Z. tauto. Qed.
Lemma e_w_pool c w1 w2 : Rw F w1 w2 -> F c YInit -> fmem c (w_pool w1) = fmem c (w_pool w2).
Proof. intros W H. pose proof (rw_same _ _ _ W _ _ H) as Z. simpl in Z. tauto. Qed.
Lemma e_w_stable c w1 w2 : Rw F w1 w2 -> F c YInit -> fmem c (w_stable w1) = fmem c (w_stable w2).
Proof. intros W H. pose proof (rw_same _ _ _ W _ _ H) as Z. simpl in Z. tauto. Qed.
Lemma e_w_rewards c w1 w2 : Rw F w1 w2 -> F c YInit -> fmem c (w_rewards w1) = fmem c (w_rewards w2).
Proof. intros W H. pose proof (rw_same _ _ _ W _ _ H) as Z. simpl in Z. tauto. Qed.
Lemma e_w_fact c w1 w2 : Rw F w1 w2 -> F c YInit -> fmem c (w_fact w1) = fmem c (w_fact w2).
Proof. intros W H. pose proof (rw_same _ _ _ W _ _ H) as Z. simpl in Z. tauto. Qed.
Lemma e_w_hop c w1 w2 : Rw F w1 w2 -> F c YInit -> fmem c (w_hop w1) = fmem c (w_hop w2).
Proof. intros W H. pose proof (rw_same _ _ _ W _ _ H) as Z. simpl in Z. tauto. Qed.
Lemma e_w_trader c w1 w2 : Rw F w1 w2 -> F c YInit -> fmem c (w_trader w1) = fmem c (w_trader w2).
Proof. intros W H. pose proof (rw_same _ _ _ W _ _ H) as Z. simpl in Z. tauto. Qed.
Lemma e_w_vest c w1 w2 : Rw F w1 w2 -> F c YInst -> fmem c (w_vest w1) = fmem c (w_vest w2).
Proof.
  intros W H. pose proof (rw_same _ _ _ W _ _ H) as Z. simpl in Z. destruct Z as (_ & _ & _ & _ & _ & Z & _).
  unfold fmem, fld in *. destruct (fget c (w_vest w1)), (fget c (w_vest w2)); simpl in Z; congruence.
Qed.
Ltac rws := repeat match goal with
  | W : Rw F ?a ?b, H : F ?c YInst |- context [fmem ?c (w_stake ?a)] => rewrite (e_w_stake _ _ _ W H)
  | W : Rw F ?a ?b, H : F ?c YInit |- context [fmem ?c (w_pool ?a)] => rewrite (e_w_pool _ _ _ W H)
  | W : Rw F ?a ?b, H : F ?c YInit |- context [fmem ?c (w_stable ?a)] => rewrite (e_w_stable _ _ _ W H)
  | W : Rw F ?a ?b, H : F ?c YInit |- context [fmem ?c (w_rewards ?a)] => rewrite (e_w_rewards _ _ _ W H)
  | W : Rw F ?a ?b, H : F ?c YInit |- context [fmem ?c (w_fact ?a)] => rewrite (e_w_fact _ _ _ W H)
  | W : Rw F ?a ?b, H : F ?c YInit |- context [fmem ?c (w_hop ?a)] => rewrite (e_w_hop _ _ _ W H)
  | W : Rw F ?a ?b, H : F ?c YInit |- context [fmem ?c (w_trader ?a)] => rewrite (e_w_trader _ _ _ W H)
  | W : Rw F ?a ?b, H : F ?c YInst |- context [fmem ?c (w_vest ?a)] => rewrite (e_w_vest _ _ _ W H)
  | R : poolrel F ?c ?p ?q, H : F ?c YConfig |- _ => progress rewrite ?(e_p_ta _ _ _ R H), ?(e_p_tb _ _ _ R H), ?(e_p_share _ _ _ R H), ?(e_p_stake _ _ _ R H), ?(e_p_fee _ _ _ R H), ?(e_p_feerec _ _ _ R H), ?(e_p_maxslip _ _ _ R H), ?(e_p_maxspread _ _ _ R H), ?(e_p_maxref _ _ _ R H)
  | R : stakerel F ?c ?p ?q, H : F ?c YConfig |- _ => progress rewrite ?(e_s_lp _ _ _ R H), ?(e_s_minbond _ _ _ R H), ?(e_s_minreward _ _ _ R H), ?(e_s_manager _ _ _ R H), ?(e_s_owner _ _ _ R H), ?(e_s_maxc _ _ _ R H)
  | R : rewardsrel F ?c ?p ?q, H : F ?c YConfig |- _ => progress rewrite ?(e_r_staking _ _ _ R H), ?(e_r_token _ _ _ R H), ?(e_r_maxc _ _ _ R H), ?(e_r_minreward _ _ _ R H), ?(e_r_minbond _ _ _ R H)
  | R : rewardsrel F ?c ?p ?q, H : F ?c YDistr |- _ => progress rewrite ?(e_r_spp _ _ _ R H), ?(e_r_left _ _ _ R H), ?(e_r_dist _ _ _ R H), ?(e_r_wdr _ _ _ R H)
  | R : factrel F ?c ?p ?q, H : F ?c YConfig |- _ => progress rewrite ?(e_f_admin _ _ _ R H), ?(e_f_hop _ _ _ R H), ?(e_f_lphash _ _ _ R H), ?(e_f_stakehash _ _ _ R H), ?(e_f_tokhash _ _ _ R H), ?(e_f_white _ _ _ R H), ?(e_f_lpdec _ _ _ R H)
  | R : vestrel F ?c ?p ?q, H : F ?c YInst |- _ => progress rewrite ?(e_v_token _ _ _ R H), ?(e_v_maxc _ _ _ R H), ?(e_v_minter _ _ _ R H)
  | R : tokrel F ?c ?p ?q, H : F ?c YInst |- _ => progress rewrite ?(e_t_admin _ _ _ R H), ?(e_t_dec _ _ _ R H), ?(e_t_allow _ _ _ R H)
  | R : poolrel F ?c ?p ?q, H : F ?c YAdmin |- _ => progress rewrite ?(pr_admin _ _ _ _ R H)
  | R : poolrel F ?c ?p ?q, H : F ?c YSlip |- _ => progress rewrite ?(pr_slip _ _ _ _ R H)
  | R : poolrel F ?c ?p ?q, H : F ?c YTotal |- _ => progress rewrite ?(pr_total _ _ _ _ R H)
  | R : poolrel F ?c ?p ?q, H : F ?c YResA |- _ => progress rewrite ?(pr_ra _ _ _ _ R H)
  | R : poolrel F ?c ?p ?q, H : F ?c YResB |- _ => progress rewrite ?(pr_rb _ _ _ _ R H)
  | R : stakerel F ?c ?p ?q, H : F ?c YAdmin |- _ => progress rewrite ?(kr_admin _ _ _ _ R H)
  | R : stakerel F ?c ?p ?q, H : F ?c YStaked |- _ => progress rewrite ?(kr_total _ _ _ _ R H)
  | R : stakerel F ?c ?p ?q, H : F ?c YTotHist |- _ => progress rewrite ?(kr_tsh _ _ _ _ R H)
  | R : stakerel F ?c ?p ?q, H : F ?c YDists |- _ => progress rewrite ?(kr_dists _ _ _ _ R H)
  | R : rewardsrel F ?c ?p ?q, H : F ?c YAdmin |- _ => progress rewrite ?(rr_admin _ _ _ _ R H)
  | R : rewardsrel F ?c ?p ?q, H : F ?c YCurve |- _ => progress rewrite ?(rr_curve _ _ _ _ R H)
  | R : vestrel F ?c ?p ?q, H : F ?c YAdmin |- _ => progress rewrite ?(vr_admin _ _ _ _ R H)
  | R : factrel F ?c ?p ?q, H : F ?c YLps |- _ => progress rewrite ?(fr_lps _ _ _ _ R H)
  | R : factrel F ?c ?p ?q, H : F ?c YStab |- _ => progress rewrite ?(fr_stab _ _ _ _ R H)
  | R : traderrel F ?c ?p ?q, H : F ?c YAdmin |- _ => progress rewrite ?(dr_admin _ _ _ _ R H)
  | R : traderrel F ?c ?p ?q, H : F ?c YTOut |- _ => progress rewrite ?(dr_out _ _ _ _ R H)
  | R : stakerel F ?c ?p ?q, H : F ?c (YUser ?u) |- _ => progress rewrite ?(e_s_user _ _ _ _ R H)
  | R : stakerel F ?c ?p ?q, H : F ?c (YHist ?u) |- _ => progress rewrite ?(kr_rh _ _ _ _ R _ H)
  | R : rewardsrel F ?c ?p ?q, H : F ?c (YAdj ?u) |- _ => progress rewrite ?(e_r_adj_of _ _ _ _ R H)
  | R : rewardsrel F ?c ?p ?q, H : F ?c YConfig |- context [calc_power ?p ?x] => progress rewrite ?(e_power _ _ _ x R H)
  | R : rewardsrel F ?c ?p ?q, H : F ?c YConfig, H1 : F ?c YDistr, H2 : F ?c (YAdj ?u) |- context [reward_now ?p ?t ?u ?b] =>
      progress rewrite ?(e_reward_now _ _ _ t u b R H H1 H2)
  | R : vestrel F ?c ?p ?q, H : F ?c (YVest ?u ?i) |- _ => progress rewrite ?(e_v_get _ _ _ _ _ R H)
  | R : vestrel F ?c ?p ?q, H : F ?c (YVest ?u ?i) |- context [available ?p ?t ?u ?i] => progress rewrite ?(e_available _ _ _ _ _ t R H)
  | R : traderrel F ?c ?p ?q, H : F ?c YTPair |- _ => progress rewrite ?(e_d_ta _ _ _ R H), ?(e_d_tb _ _ _ R H)
  end.

Ltac lgz := unfold grow; logTs.
(** what a note says about the listed entries *)
Ltac facts H := unfold got_notes, wrote_notes in H; cbn [flat_map map app] in H; rewrite ?within_cons, ?within_app in H; cbn [x_at x_key] in H;
  repeat match type of H with _ /\ _ => let H1 := fresh "Fy" in destruct H as [H1 H] end; try clear H.
Ltac emleaf := unfold come, seen, instP, got, peek, looks, wrote, puts, got_notes, wrote_notes; apply em_note; simpl; solve [auto 16].
Ltac emz := cbv zeta; lazymatch goal with
  | |- emits _ (mbind _ _) => first [apply em_l; [solve [emleaf] | intros ?; solve [lgz]] | apply em_r; [solve [lgz] | intros ?; emz]]
  | |- emits _ (match ?t with _ => _ end) => destruct t; emz
  | |- emits _ (z_put_pool _ _ _) => unfold z_put_pool; emz
  | |- emits _ (z_put_stake _ _ _) => unfold z_put_stake; emz
  | |- emits _ (z_put_vest _ _ _) => unfold z_put_vest; emz
  | |- _ => emleaf end.
Ltac ahead c y a := apply (sim_ahead F (mkT c y a)); [solve [emz] | let H := fresh "Fy" in intro H; cbn [x_at x_key] in H].

(** a function that notes the entries it reads right after reading them *)
Ltac somekey lem := first [eapply lem; [eassumption | reflexivity]].
Lemma rel_v_put c p q u i x : vestrel F c p q -> vestrel F c (v_put p u i x) (v_put q u i x).
Proof.
  intros R. constructor; [exact (vr_inst _ _ _ _ R) | exact (vr_admin _ _ _ _ R)|]. intros a j H. unfold v_put, v_entries at 1 3. cbn.
  rewrite !fgetd_set. destruct (a =? u) eqn:E; [|apply (vr_ent _ _ _ _ R _ _ H)]. apply Z.eqb_eq in E. subst. rewrite !fget_set.
  destruct (j =? i); auto. apply (vr_ent _ _ _ _ R _ _ H).
Qed.
Lemma rel_pair_set c p q a b x l : factrel F c p q -> factrel F c (set_f_reg p l (pair_set p a b x)) (set_f_reg q l (pair_set q a b x)).
Proof.
  intros R. constructor; [exact (fr_config _ _ _ _ R) | reflexivity | exact (fr_stab _ _ _ _ R) |]. intros a' b' H. unfold pair_get, pair_set. cbn.
  rewrite !fgetd_set. destruct (a' =? a) eqn:E; [|apply (fr_pair _ _ _ _ R _ _ H)]. apply Z.eqb_eq in E. subst. rewrite !fget_set.
  destruct (b' =? b); auto. apply (fr_pair _ _ _ _ R _ _ H).
Qed.
Ltac rel_goal := try assumption; rws; try (apply rel_v_put; assumption); try (apply rel_pair_set; assumption); repeat match goal with |- context [if ?b then set_p_res _ _ _ else _] => destruct b end; constructor; intros; cbn; unfold pair_get, v_entries, r_adj_of in *; cbn;
  first [reflexivity | solve [auto] | unfold vest_inst, pool_config, stake_config, rewards_config, distribution, fact_config, token_inst; cbn; rws; reflexivity
    | match goal with R : vestrel F _ _ _, H : F _ (YVest _ _) |- _ => exact (vr_ent _ _ _ _ R _ _ H) end
    | match goal with R : factrel F _ _ _, H : F _ (YPair _ _) |- _ => exact (fr_pair _ _ _ _ R _ _ H) end
    | match goal with R : poolrel F _ _ _ |- _ => destruct R; auto; fail end
    | match goal with R : stakerel F _ _ _ |- _ => destruct R; auto; fail end
    | match goal with R : rewardsrel F _ _ _ |- _ => destruct R; auto; fail end
    | match goal with R : vestrel F _ _ _ |- _ => destruct R; auto; fail end
    | match goal with R : factrel F _ _ _ |- _ => destruct R; auto; fail end
    | rewrite !fget_set; match goal with |- context [?a =? ?b] => destruct (a =? b) end; [reflexivity | match goal with
        | R : stakerel F _ _ _ |- _ => destruct R; auto; fail
        | R : rewardsrel F _ _ _ |- _ => destruct R; auto; fail end] ].
Create HintDb sims.
Ltac post H := cbn beta in H; lazymatch type of H with
  | within F _ => facts H
  | _ = _ => try subst
  | True => clear H
  | _ /\ _ => let H1 := fresh "R" in let H2 := fresh "N" in destruct H as [H1 H2]; post H1; post H2
  | _ => idtac end.
Ltac prim := lazymatch goal with
  | |- Footprint.sim _ (tf mget) _ _ => apply sim_mget
  | |- Footprint.sim _ (tf now) _ _ => apply sim_now
  | |- Footprint.sim _ (tf (require_auth _ _ _)) _ _ => apply sim_auth
  | |- Footprint.sim _ (tf (check_deadline _ _)) _ _ => apply sim_deadline
  | |- Footprint.sim _ (tf (enter _ _)) _ _ => apply sim_enter; assumption
  | |- Footprint.sim _ (tf (deploy _ _)) _ _ => apply sim_deploy; assumption
  | |- Footprint.sim _ (tf (get_pool _)) _ _ => match goal with H : F ?c ?y |- Footprint.sim _ (tf (_ ?c)) _ _ => apply (sim_get_pool F c y H eq_refl) end
  | |- Footprint.sim _ (tf (get_stake _)) _ _ => match goal with H : F ?c ?y |- Footprint.sim _ (tf (_ ?c)) _ _ => apply (sim_get_stake F c y H eq_refl) end
  | |- Footprint.sim _ (tf (get_rewards _)) _ _ => match goal with H : F ?c ?y |- Footprint.sim _ (tf (_ ?c)) _ _ => apply (sim_get_rewards F c y H eq_refl) end
  | |- Footprint.sim _ (tf (get_fact _)) _ _ => match goal with H : F ?c ?y |- Footprint.sim _ (tf (_ ?c)) _ _ => apply (sim_get_fact F c y H eq_refl) end
  | |- Footprint.sim _ (tf (get_trader _)) _ _ => match goal with H : F ?c ?y |- Footprint.sim _ (tf (_ ?c)) _ _ => apply (sim_get_trader F c y H eq_refl) end
  | |- Footprint.sim _ (tf (get_vest _)) _ _ => apply sim_get_vest; assumption
  | |- Footprint.sim _ (tf (get_stable _)) _ _ => apply sim_get_stable; assumption
  | |- Footprint.sim _ (tf (get_hop _)) _ _ => apply sim_get_hop; assumption
  | |- Footprint.sim _ (tf (get_tok _)) _ _ => apply sim_get_tok; assumption
  | |- Footprint.sim _ (tf (put_wasm _ _)) _ _ => apply sim_put_wasm
  | |- Footprint.sim _ (tf (put_pool _ _)) _ _ => apply sim_put_pool; rel_goal
  | |- Footprint.sim _ (tf (put_stake _ _)) _ _ => apply sim_put_stake; rel_goal
  | |- Footprint.sim _ (tf (put_rewards _ _)) _ _ => apply sim_put_rewards; rel_goal
  | |- Footprint.sim _ (tf (put_vest _ _)) _ _ => apply sim_put_vest; rel_goal
  | |- Footprint.sim _ (tf (put_fact _ _)) _ _ => apply sim_put_fact; rel_goal
  | |- Footprint.sim _ (tf (put_trader _ _)) _ _ => apply sim_put_trader; rel_goal
  | |- Footprint.sim _ (tf (put_tok _ _)) _ _ => apply sim_put_tok; rel_goal
  | |- Footprint.sim _ (tf (put_stable _ _)) _ _ => apply sim_put_stable
  | |- Footprint.sim _ (tf (put_hop _ _)) _ _ => apply sim_put_hop
  | |- Footprint.sim _ (mguard _ _) _ _ => apply sim_guard; try exact (fun H => H)
  | |- Footprint.sim _ (mlift _) _ _ => apply sim_lift_eq
  | |- Footprint.sim _ (come _) _ _ => apply sim_note
  | |- Footprint.sim _ (seen _) _ _ => apply sim_note
  | |- Footprint.sim _ (instP _) _ _ => apply sim_note
  | |- Footprint.sim _ (got _ _) _ _ => apply sim_note
  | |- Footprint.sim _ (peek _ _) _ _ => apply sim_note
  | |- Footprint.sim _ (looks _ _) _ _ => apply sim_note
  | |- Footprint.sim _ (wrote _ _) _ _ => apply sim_note
  | |- Footprint.sim _ (puts _ _) _ _ => apply sim_note
  | |- Footprint.sim _ (tnote _) _ _ => apply sim_note
  | |- _ => solve [auto with sims] end.
(** getters of several entries: look ahead at the note *)
Ltac opens := unfold z_put_pool, z_put_stable, z_put_stake, z_put_rewards, z_put_vest, z_put_fact, z_put_hop, z_put_trader.
Ltac s1 := cbv zeta; lazymatch goal with
  | |- Footprint.sim _ (mbind (mbind _ _) _) (mbind (mbind _ _) _) _ => eapply sim_bind; [solve [lgz] | intros ?; solve [lgz] | | ]
  | |- Footprint.sim _ (mbind _ _) (mbind _ _) _ =>
      eapply sim_bind; [solve [lgz] | intros ?; solve [lgz] | solve [prim] | let H := fresh "Q" in intros ? ? H; post H; rws]
  | |- Footprint.sim _ (mret _) _ _ => apply sim_ret
  | |- Footprint.sim _ (mfail _) _ _ => apply sim_fail
  | |- Footprint.sim _ (match ?t with _ => _ end) (match ?t with _ => _ end) _ => destruct t eqn:?
  | |- Footprint.sim _ _ _ (fun _ _ => True) => eapply sim_post; [solve [prim] | auto]
  end.

(** *** reading entries *)
Lemma got_in c ks y : within F (got_notes c ks) -> In y ks -> F c y.
Proof. intros W I. apply (W (mkT c y Look)). unfold got_notes. apply in_flat_map. exists y. simpl. auto. Qed.
Lemma em_got c ks y : In y ks -> emits (mkT c y Look) (got c ks).
Proof. intros I. apply em_note. unfold got_notes. apply in_flat_map. exists y. simpl. auto. Qed.
Ltac getter get_lem := intros I K;
  match goal with |- context [got ?c ?ks] => match type of I with In ?y _ =>
    apply (sim_ahead F (mkT c y Look)); [apply em_r; [solve [lgz] | intros ?; apply em_l; [apply em_got; exact I | intros ?; solve [lgz]]] | intros Fy; cbn in Fy] end end;
  eapply sim_bind; [solve [lgz] | intros ?; solve [lgz] | eapply get_lem; eassumption | intros p q R];
  eapply sim_bind; [solve [lgz] | intros ?; solve [lgz] | apply sim_note | intros ? ? W; cbn beta in W].
Lemma sim_z_get_pool c ks y : In y ks -> pool_key y = true ->
  sim (z_get_pool c ks) (z_get_pool c ks) (fun p q => poolrel F c p q /\ within F (got_notes c ks)).
Proof. unfold z_get_pool. getter sim_get_pool. apply sim_ret. auto. Qed.
Lemma sim_z_get_stake c ks y : In y ks -> stake_key y = true ->
  sim (z_get_stake c ks) (z_get_stake c ks) (fun p q => stakerel F c p q /\ within F (got_notes c ks)).
Proof. unfold z_get_stake. getter sim_get_stake. apply sim_ret. auto. Qed.
Lemma sim_z_get_fact c ks y : In y ks -> fact_key y = true ->
  sim (z_get_fact c ks) (z_get_fact c ks) (fun p q => factrel F c p q /\ within F (got_notes c ks)).
Proof. unfold z_get_fact. getter sim_get_fact. apply sim_ret. auto. Qed.
Lemma sim_z_get_trader c ks y : In y ks -> trader_key y = true ->
  sim (z_get_trader c ks) (z_get_trader c ks) (fun p q => traderrel F c p q /\ within F (got_notes c ks)).
Proof. unfold z_get_trader. getter sim_get_trader. apply sim_ret. auto. Qed.
Lemma sim_z_get_rewards c ks ls y : In y ks -> rewards_key y = true ->
  sim (z_get_rewards c ks ls) (z_get_rewards c ks ls)
    (fun p q => rewardsrel F c p q /\ within F (got_notes c ks) /\ within F (map (fun k => mkT c k Look) ls)).
Proof.
  unfold z_get_rewards. getter sim_get_rewards.
  eapply sim_bind; [solve [lgz] | intros ?; solve [lgz] | apply sim_note | intros ? ? W2; cbn beta in W2]. apply sim_ret. auto.
Qed.
Lemma sim_z_get_vest c ks : F c YInst ->
  sim (z_get_vest c ks) (z_get_vest c ks) (fun p q => vestrel F c p q /\ within F (got_notes c ks)).
Proof.
  intros H. unfold z_get_vest. eapply sim_bind; [solve [lgz] | intros ?; solve [lgz] | apply sim_get_vest; auto | intros p q R].
  eapply sim_bind; [solve [lgz] | intros ?; solve [lgz] | apply sim_note | intros ? ? W; cbn beta in W]. apply sim_ret. auto.
Qed.
Lemma sim_z_get_stake0 c : F c YInst -> sim (z_get_stake c []) (z_get_stake c []) (fun p q => stakerel F c p q /\ within F (got_notes c [])).
Proof.
  intros H. unfold z_get_stake. eapply sim_bind; [solve [lgz] | intros ?; solve [lgz] | eapply sim_get_stake; [exact H | reflexivity] | intros p q R].
  eapply sim_bind; [solve [lgz] | intros ?; solve [lgz] | apply sim_note | intros ? ? W; cbn beta in W]. apply sim_ret. auto.
Qed.
Ltac getz := lazymatch goal with
  | |- Footprint.sim _ (z_get_pool _ _) _ _ => eapply sim_z_get_pool; [left; reflexivity | reflexivity]
  | |- Footprint.sim _ (z_get_stake _ []) _ _ => apply sim_z_get_stake0; assumption
  | |- Footprint.sim _ (z_get_stake _ _) _ _ => eapply sim_z_get_stake; [left; reflexivity | reflexivity]
  | |- Footprint.sim _ (z_get_fact _ _) _ _ => eapply sim_z_get_fact; [left; reflexivity | reflexivity]
  | |- Footprint.sim _ (z_get_trader _ _) _ _ => eapply sim_z_get_trader; [left; reflexivity | reflexivity]
  | |- Footprint.sim _ (z_get_rewards _ _ _) _ _ => eapply sim_z_get_rewards; [left; reflexivity | reflexivity]
  | |- Footprint.sim _ (z_get_vest _ _) _ _ => apply sim_z_get_vest; assumption
  | |- _ => prim end.
Ltac s2 := cbv zeta; lazymatch goal with
  | |- Footprint.sim _ (mbind (mbind _ _) _) (mbind (mbind _ _) _) _ => eapply sim_bind; [solve [lgz] | intros ?; solve [lgz] | | ]
  | |- Footprint.sim _ (mbind _ _) (mbind _ _) _ =>
      eapply sim_bind; [solve [lgz] | intros ?; solve [lgz] | solve [getz] | let H := fresh "Q" in intros ? ? H; post H; rws]
  | |- Footprint.sim _ (mret _) _ _ => apply sim_ret
  | |- Footprint.sim _ (mfail _) _ _ => apply sim_fail
  | |- Footprint.sim _ (match ?t with _ => _ end) (match ?t with _ => _ end) _ => destruct t eqn:?
  | |- Footprint.sim _ _ _ (fun _ _ => True) => eapply sim_post; [solve [prim] | auto]
  | |- Footprint.sim _ _ _ ?Q => is_evar Q; solve [prim]
  | |- forall _ _, _ -> Footprint.sim _ _ _ _ => let H := fresh "Q" in intros ? ? H; post H; rws
  end.

(** *** tokens *)
Definition tokf (t : Addr) (f : Token -> res Token) : Prop :=
  forall k1 k2 k', tokrel F t k1 k2 -> f k1 = Ok k' -> exists k2', f k2 = Ok k2' /\ tokrel F t k' k2'.
Lemma e_balance t k1 k2 u : tokrel F t k1 k2 -> F t (YBal u) -> tk_balance u k1 = tk_balance u k2.
Proof. intros R H. unfold tk_balance, fgetd. rewrite (tr_bal _ _ _ _ R u H). reflexivity. Qed.
Lemma tr_write t k1 k2 u x : tokrel F t k1 k2 -> tokrel F t (tk_write_balance u x k1) (tk_write_balance u x k2).
Proof.
  intros [A B]. constructor; [exact A|]. intros v H. cbn. rewrite !fget_set. destruct (v =? u); auto.
Qed.
Lemma tokf_receive t u x : F t (YBal u) -> tokf t (tk_receive u x).
Proof.
  intros H k1 k2 k' R X. unfold tk_receive in *. rewrite (e_balance _ _ _ _ R H) in X. apply rbind_ok in X as (b & A & X). rewrite A. cbn.
  inversion X; subst. eexists. split; [reflexivity | apply tr_write, R].
Qed.
Lemma tokf_spend t u x : F t (YBal u) -> tokf t (tk_spend u x).
Proof.
  intros H k1 k2 k' R X. unfold tk_spend in *. rewrite (e_balance _ _ _ _ R H) in X. cbv zeta in *.
  apply rbind_ok in X as (g & G & X). rewrite G. cbn. apply rbind_ok in X as (b & A & X). rewrite A. cbn.
  inversion X; subst. eexists. split; [reflexivity | apply tr_write, R].
Qed.
Lemma tokf_bind t f g : tokf t f -> tokf t g -> tokf t (fun k => let? k1 := f k in g k1).
Proof.
  intros A B k1 k2 k' R X. apply rbind_ok in X as (k & X1 & X2). destruct (A _ _ _ R X1) as (k0 & Y & R0). rewrite Y. cbn. apply (B _ _ _ R0 X2).
Qed.
Lemma tokf_write_allow t s a b x y : F t YInst -> tokf t (tk_write_allowance s a b x y).
Proof.
  intros H k1 k2 k' R X. unfold tk_write_allowance in *. pose proof (tr_inst _ _ _ _ R H) as E. unfold token_inst in E.
  apply rbind_ok in X as (g & G & X). rewrite G. cbn. inversion X; subst. eexists. split; [reflexivity|].
  constructor; [intros _; unfold token_inst; cbn; rewrite (e_t_admin _ _ _ R H), (e_t_dec _ _ _ R H), (e_t_allow _ _ _ R H); reflexivity | exact (tr_bal _ _ _ _ R)].
Qed.
Lemma tokf_spend_allow t s a b x : F t YInst -> tokf t (tk_spend_allowance s a b x).
Proof.
  intros H k1 k2 k' R X. unfold tk_spend_allowance in *.
  assert (E : tk_read_allowance s a b k1 = tk_read_allowance s a b k2).
  { unfold tk_read_allowance, tk_allow_entry. rewrite (e_t_allow _ _ _ R H). reflexivity. }
  rewrite E in X. destruct (tk_read_allowance s a b k2) as [a0 ex]. apply rbind_ok in X as (g & G & X). rewrite G. cbn.
  destruct (0 <? x); [|inversion X; subst; exists k2; split; [reflexivity | exact R]]. apply rbind_ok in X as (a' & A & X). rewrite A. cbn. eapply tokf_write_allow; eauto.
Qed.
Lemma tokf_same t (g : Token -> Token) : (forall k, t_bal (g k) = t_bal k) -> (forall k1 k2, token_inst k1 = token_inst k2 -> token_inst (g k1) = token_inst (g k2)) ->
  tokf t (fun k => Ok (g k)).
Proof.
  intros A B k1 k2 k' [R1 R2] X. inversion X; subst. eexists. split; [reflexivity|]. constructor; [intros H; apply B, R1, H|].
  intros u H. rewrite !A. auto.
Qed.
Lemma upd_ahead t f us Q (m2 : TST unit) : (F t YInst -> (forall u, In u us -> F t (YBal u)) -> sim (z_upd_tok t f us) m2 Q) -> sim (z_upd_tok t f us) m2 Q.
Proof.
  intros K. apply (sim_ahead F (mkT t YInst Look)).
  { unfold z_upd_tok. apply em_r; [solve [lgz] | intros ?]. apply em_l; [emleaf | intros ?; solve [lgz]]. }
  intros Ft. cbn in Ft.
  assert (G : forall vs, incl vs us -> ((forall u, In u vs -> F t (YBal u)) -> sim (z_upd_tok t f us) m2 Q) -> sim (z_upd_tok t f us) m2 Q).
  { induction vs as [|v tl IH]; intros J H; [apply H; intros u [] |]. apply (sim_ahead F (mkT t (YBal v) Put)).
    - unfold z_upd_tok. apply em_r; [solve [lgz] | intros ?]. apply em_r; [solve [lgz] | intros ?]. apply em_note, in_flat_map. exists v. split; [apply J; left; auto | simpl; auto].
    - intros Fv. cbn in Fv. apply IH; [intros x I; apply J; right; auto|]. intros H2. apply H. intros u [<-|I]; auto. }
  apply (G us (incl_refl _)). auto.
Qed.
Lemma sim_upd t f us : (F t YInst -> (forall u, In u us -> F t (YBal u)) -> tokf t f) -> same_run (z_upd_tok t f us).
Proof.
  intros K. apply upd_ahead. intros Ft Fu. specialize (K Ft Fu). unfold z_upd_tok.
  eapply sim_bind; [solve [lgz] | intros ?; solve [lgz] | | ].
  { instantiate (1 := fun _ _ => True). apply sim_tf. intros w1 w2 r1 w1' W X. unfold upd_tok in *. apply mbind_ok in X as (k & wk & A & X).
    apply mbind_ok in X as (k' & wk' & B & X). apply mlift_ok in B as (x0 & B & E0). inversion E0; subst; clear E0.
    assert (S1 := sim_get_tok F t Ft). assert (S2 := fun k2' R => sim_put_tok F t x0 k2' R).
    destruct (S1 w1 w2 [] [] k wk [] W) as (k2 & w2' & G & R & W2); [unfold tf; cbn; rewrite A; reflexivity | intros x [] |].
    destruct (K _ _ _ R B) as (k2' & C & R2). unfold tf in G. cbn in G. unfold mbind. destruct (get_tok t w2) as [[x y]|]; [|discriminate].
    inversion G; subst. unfold mlift. rewrite C. cbn.
    destruct (S2 k2' R2 wk w2' [] [] r1 w1' [] W2) as (r2 & w3 & H1 & _ & H3); [unfold tf; cbn; rewrite X; reflexivity | intros x [] |].
    unfold tf in H1. cbn in H1. destruct (put_tok t k2' w2') as [[x y]|]; [|discriminate]. inversion H1; subst. eauto. }
  intros _ _ _. repeat s2.
Qed.
Lemma upd_ext t f g us l w : (forall k, f k = g k) -> z_upd_tok t f us (w, l) = z_upd_tok t g us (w, l).
Proof. intros E. unfold z_upd_tok, upd_tok, mbind, tf, mlift, get_tok. cbn. destruct (fget t (w_tok w)); auto. rewrite E. reflexivity. Qed.

Lemma sim_ext_r {A} (m1 m2 m3 : TST A) Q : sim m1 m2 Q -> (forall s, m2 s = m3 s) -> sim m1 m3 Q.
Proof. intros S E w1 w2 l1 l2 r1 w1' D W X I. rewrite <- E. apply (S w1 w2 l1 l2 r1 w1' D W X I). Qed.
Lemma sim_deploys c k : same_run (z_deploy c k).
Proof. unfold z_deploy. ahead c YInst Put. repeat s2. Qed.
#[local] Hint Resolve sim_deploys : sims.
Lemma sim_tok_deploy t a d : same_run (z_tok_deploy t a d).
Proof. unfold z_tok_deploy. repeat s2. Qed.
#[local] Hint Resolve sim_tok_deploy : sims.
Ltac infl := simpl; tauto.
Lemma sim_mint e c t to amt : same_run (z_mint e c t to amt).
Proof.
  unfold z_mint.
  apply (sim_ahead F (mkT t YInst Look)).
  { apply em_r; [solve [lgz] | intros ?]. apply em_r; [solve [lgz] | intros ?]. apply em_r; [solve [lgz] | intros ?].
    unfold z_upd_tok. apply em_r; [solve [lgz] | intros ?]. apply em_l; [emleaf | intros ?; solve [lgz]]. }
  intros Ft; cbn in Ft. repeat s2. apply sim_upd. intros _ Fu. apply tokf_bind; [apply tokf_receive, Fu; infl|].
  apply tokf_same; [reflexivity|]. intros k1 k2 E. exact E.
Qed.
#[local] Hint Resolve sim_mint : sims.
Lemma sim_set_admin e c t a : same_run (z_set_admin e c t a).
Proof.
  unfold z_set_admin.
  apply (sim_ahead F (mkT t YInst Look)).
  { apply em_r; [solve [lgz] | intros ?]. apply em_r; [solve [lgz] | intros ?].
    unfold z_upd_tok. apply em_r; [solve [lgz] | intros ?]. apply em_l; [emleaf | intros ?; solve [lgz]]. }
  intros Ft; cbn in Ft. repeat s2. apply sim_upd. intros _ Fu.
  apply tokf_same; [reflexivity|]. unfold token_inst. cbn. intros k1 k2 E. congruence.
Qed.
#[local] Hint Resolve sim_set_admin : sims.
Lemma sim_approve e c t f s a x : same_run (z_approve e c t f s a x).
Proof.
  unfold z_approve. repeat s2. match goal with W : Rw F _ _ |- _ => rewrite (rw_seq _ _ _ W) end. apply sim_upd. intros Ft _. apply tokf_write_allow, Ft.
Qed.
#[local] Hint Resolve sim_approve : sims.
Lemma sim_transfer e c t f to a : same_run (z_transfer e c t f to a).
Proof.
  unfold z_transfer. repeat s2. apply sim_upd. intros Ft Fu. apply tokf_bind; [apply tokf_spend, Fu | apply tokf_receive, Fu]; infl.
Qed.
#[local] Hint Resolve sim_transfer : sims.
Lemma sim_transfer_from e c t s f to a : same_run (z_transfer_from e c t s f to a).
Proof.
  unfold z_transfer_from. repeat s2. match goal with W : Rw F _ _ |- _ => rewrite (rw_seq _ _ _ W) end. apply sim_upd. intros Ft Fu.
  apply tokf_bind; [apply tokf_spend_allow, Ft|]. apply tokf_bind; [apply tokf_spend, Fu | apply tokf_receive, Fu]; infl.
Qed.
#[local] Hint Resolve sim_transfer_from : sims.
Lemma sim_burn e c t f a : same_run (z_burn e c t f a).
Proof.
  unfold z_burn. repeat s2. apply sim_upd. intros Ft Fu. apply tokf_bind; [apply tokf_spend, Fu; infl|].
  apply tokf_same; [reflexivity|]. intros k1 k2 E. exact E.
Qed.
#[local] Hint Resolve sim_burn : sims.
Lemma sim_burn_from e c t s f a : same_run (z_burn_from e c t s f a).
Proof.
  unfold z_burn_from. repeat s2. match goal with W : Rw F _ _ |- _ => rewrite (rw_seq _ _ _ W) end. apply sim_upd. intros Ft Fu.
  apply tokf_bind; [apply tokf_spend_allow, Ft|]. apply tokf_bind; [apply tokf_spend, Fu; infl|].
  apply tokf_same; [reflexivity|]. intros k1 k2 E. exact E.
Qed.
#[local] Hint Resolve sim_burn_from : sims.
Lemma sim_balance t a : sim (z_balance t a) (z_balance t a) eq.
Proof.
  unfold z_balance. ahead t YInst Look. ahead t (YBal a) Peek.
  eapply sim_bind; [solve [lgz] | intros ?; solve [lgz] | | ].
  { instantiate (1 := eq). apply sim_tf. intros w1 w2 r1 w1' W X. unfold tok_balance in *. apply mbind_ok in X as (k & wk & A & X).
    inversion X; subst; clear X.
    destruct (sim_get_tok F t Fy w1 w2 [] [] k w1' [] W) as (k2 & w2' & G & R & W2); [unfold tf; cbn; rewrite A; reflexivity | intros x [] |].
    unfold tf in G. cbn in G. unfold mbind. destruct (get_tok t w2) as [[x y]|]; [|discriminate].
    inversion G; subst. exists (tk_balance a k2), w2'. rewrite (e_balance _ _ _ _ R Fy0). auto. }
  intros x ? <-. repeat s2. reflexivity.
Qed.
#[local] Hint Resolve sim_balance : sims.
Lemma sim_decimals t : sim (z_decimals t) (z_decimals t) eq.
Proof.
  unfold z_decimals. ahead t YInst Look.
  eapply sim_bind; [solve [lgz] | intros ?; solve [lgz] | | ].
  { instantiate (1 := eq). apply sim_tf. intros w1 w2 r1 w1' W X. unfold tok_decimals in *. apply mbind_ok in X as (k & wk & A & X).
    inversion X; subst; clear X.
    destruct (sim_get_tok F t Fy w1 w2 [] [] k w1' [] W) as (k2 & w2' & G & R & W2); [unfold tf; cbn; rewrite A; reflexivity | intros x [] |].
    unfold tf in G. cbn in G. unfold mbind. destruct (get_tok t w2) as [[x y]|]; [|discriminate].
    inversion G; subst. exists (t_dec k2), w2'. rewrite (e_t_dec _ _ _ R Fy). auto. }
  intros x ? <-. repeat s2. reflexivity.
Qed.
#[local] Hint Resolve sim_decimals : sims.

(** *** stake *)
Lemma sim_stake_initialize k a l mb mr m o mc : same_run (z_stake_initialize k a l mb mr m o mc).
Proof. unfold z_stake_initialize. ahead k YInst Look. opens. repeat s2. Qed.
#[local] Hint Resolve sim_stake_initialize : sims.
Lemma sim_bond e c k u a : same_run (z_stake_bond e c k u a).
Proof. unfold z_stake_bond. ahead k YInst Look. opens. repeat s2. Qed.
#[local] Hint Resolve sim_bond : sims.
Lemma sim_unbond e c k u a t : same_run (z_stake_unbond e c k u a t).
Proof. unfold z_stake_unbond. ahead k YInst Look. opens. repeat s2. Qed.
#[local] Hint Resolve sim_unbond : sims.
Lemma sim_create_flow e c k u a : same_run (z_stake_create_flow e c k u a).
Proof. unfold z_stake_create_flow. ahead k YInst Look. opens. repeat s2. Qed.
#[local] Hint Resolve sim_create_flow : sims.

Lemma sim_stake_distribute e c k u a t : same_run (z_stake_distribute e c k u a t).
Proof. unfold z_stake_distribute. ahead k YInst Look. ahead k (YHist t) Look. opens. repeat s2.
Qed.
#[local] Hint Resolve sim_stake_distribute : sims.
Lemma sim_pay_rewards e k u t b l : forall s1 s2, stakerel F k s1 s2 ->
  sim (z_pay_rewards e k u s1 t b l) (z_pay_rewards e k u s2 t b l) (fun _ _ => True).
Proof.
  induction l as [|a tl IH]; intros s1 s2 R; cbn [z_pay_rewards]; [apply sim_ret; exact I|].
  ahead k (YHist a) Look. ahead k YTotHist Look.
  replace (pending_rewards s1 t a b) with (pending_rewards s2 t a b)
    by (unfold pending_rewards; rewrite (kr_rh _ _ _ _ R _ Fy), (kr_tsh _ _ _ _ R Fy0); reflexivity).
  s2. s2. s2. apply IH, R.
Qed.
Lemma sim_withdraw_rewards e k u : same_run (z_stake_withdraw_rewards e k u).
Proof.
  unfold z_stake_withdraw_rewards. ahead k YInst Look. opens. repeat (s2; []).
  eapply sim_bind; [solve [lgz] | intros ?; solve [lgz] | apply sim_pay_rewards; eassumption | intros ? ? _].
  repeat s2.
Qed.
#[local] Hint Resolve sim_withdraw_rewards : sims.

(** *** pool *)
Lemma sim_deploy_share e c a b d : sim (z_deploy_share e c a b d) (z_deploy_share e c a b d) eq.
Proof. unfold z_deploy_share. repeat s2. reflexivity. Qed.
#[local] Hint Resolve sim_deploy_share : sims.
Lemma sim_deploy_stake_of e c a s mb mr m o mc : sim (z_deploy_stake_of e c a s mb mr m o mc) (z_deploy_stake_of e c a s mb mr m o mc) eq.
Proof. unfold z_deploy_stake_of. repeat s2. reflexivity. Qed.
#[local] Hint Resolve sim_deploy_stake_of : sims.
Lemma sim_pool_initialize e p i f d s m : same_run (z_pool_initialize e p i f d s m).
Proof. unfold z_pool_initialize. ahead p YInst Look. opens. repeat s2. Qed.
#[local] Hint Resolve sim_pool_initialize : sims.
Lemma sim_mint_shares e p to a : F p YConfig -> same_run (z_mint_shares e p to a).
Proof. intros H. unfold z_mint_shares. opens. repeat s2. Qed.
#[local] Hint Resolve sim_mint_shares : sims.
Lemma sim_burn_shares e p a : F p YConfig -> same_run (z_burn_shares e p a).
Proof. intros H. unfold z_burn_shares. opens. repeat s2. Qed.
#[local] Hint Resolve sim_burn_shares : sims.
Lemma sim_new_share_total e c a b x y p q : poolrel F c p q -> F c YConfig -> F c YResA -> F c YResB -> F c YTotal ->
  sim (z_new_share_total e c a b x y p) (z_new_share_total e c a b x y q) eq.
Proof.
  intros R A B C D. unfold z_new_share_total. rws. s2.
  - repeat s2. reflexivity.
  - do 4 s2. apply sim_lift_eq.
Qed.
#[local] Hint Resolve sim_new_share_total : sims.
Lemma sim_pool_provide e c p u da ma db mb cu dl : same_run (z_pool_provide e c p u da ma db mb cu dl).
Proof.
  unfold z_pool_provide. ahead p YInst Look. opens. repeat s2.
Qed.
#[local] Hint Resolve sim_pool_provide : sims.
Lemma sim_do_swap e p u o a mi ms mf : sim (z_do_swap e p u o a mi ms mf) (z_do_swap e p u o a mi ms mf) eq.
Proof. unfold z_do_swap. opens. repeat s2; reflexivity. Qed.
#[local] Hint Resolve sim_do_swap : sims.
Lemma sim_pool_swap e c p u o a mi ms dl mf : sim (z_pool_swap e c p u o a mi ms dl mf) (z_pool_swap e c p u o a mi ms dl mf) eq.
Proof. unfold z_pool_swap. ahead p YInst Look. repeat (s2; []). apply sim_do_swap. Qed.
#[local] Hint Resolve sim_pool_swap : sims.
Lemma sim_pool_withdraw e c p u s a b dl : sim (z_pool_withdraw e c p u s a b dl) (z_pool_withdraw e c p u s a b dl) eq.
Proof. unfold z_pool_withdraw. ahead p YInst Look. opens. repeat s2. reflexivity. Qed.
#[local] Hint Resolve sim_pool_withdraw : sims.

(** *** pool_stable *)
Lemma sim_stable_initialize e p i f a m : same_run (z_stable_initialize e p i f a m).
Proof. unfold z_stable_initialize. ahead p YInst Look. opens. repeat s2. Qed.
#[local] Hint Resolve sim_stable_initialize : sims.
Lemma sim_stable_mint_shares e p to a : F p YInst -> same_run (z_stable_mint_shares e p to a).
Proof. intros H. unfold z_stable_mint_shares. opens. repeat s2. Qed.
Lemma sim_stable_burn_shares e p a : F p YInst -> same_run (z_stable_burn_shares e p a).
Proof. intros H. unfold z_stable_burn_shares. opens. repeat s2. Qed.
#[local] Hint Resolve sim_stable_mint_shares sim_stable_burn_shares : sims.
Lemma sim_stable_provide e c p u da db cu dl ms : same_run (z_stable_provide e c p u da db cu dl ms).
Proof. unfold z_stable_provide. ahead p YInst Look. opens. repeat s2. Qed.
#[local] Hint Resolve sim_stable_provide : sims.
Lemma sim_stable_do_swap e p u o a mi ms mf : F p YInst -> sim (z_stable_do_swap e p u o a mi ms mf) (z_stable_do_swap e p u o a mi ms mf) eq.
Proof. intros H. unfold z_stable_do_swap. opens. repeat s2; reflexivity. Qed.
#[local] Hint Resolve sim_stable_do_swap : sims.
Lemma sim_stable_swap e c p u o a mi ms dl mf : sim (z_stable_swap e c p u o a mi ms dl mf) (z_stable_swap e c p u o a mi ms dl mf) eq.
Proof. unfold z_stable_swap. ahead p YInst Look. repeat (s2; []). apply sim_stable_do_swap, Fy. Qed.
#[local] Hint Resolve sim_stable_swap : sims.
Lemma sim_stable_withdraw e c p u s a b dl : sim (z_stable_withdraw e c p u s a b dl) (z_stable_withdraw e c p u s a b dl) eq.
Proof. unfold z_stable_withdraw. ahead p YInst Look. opens. repeat s2. reflexivity. Qed.
#[local] Hint Resolve sim_stable_withdraw : sims.
Lemma sim_stable_config p u a1 a2 a3 a4 a5 : same_run (z_stable_update_config p u a1 a2 a3 a4 a5).
Proof.
  unfold z_stable_update_config. ahead p YInst Look. eapply sim_bind; [solve [lgz] | intros ?; solve [lgz] | | intros ? ? _; repeat s2].
  instantiate (1 := fun _ _ => True). apply sim_tf. intros w1 w2 r1 w1' W X.
  pose proof (rw_same _ _ _ W _ _ Fy) as Z. simpl in Z. destruct Z as (Zc & _ & _ & Zs & _).
  unfold stable_update_config, enter, is_code, mget, mbind, mguard, get_stable in X |- *. rewrite Zc in X.
  destruct (match fget p (w_code w2) with Some k' => kind_eqb KStable k' | None => false end); [|discriminate].
  cbn in X |- *. rewrite Zs in X. destruct (fget p (w_stable w2)) as [q|]; [|discriminate]. destruct (u =? l_admin q); [|discriminate].
  destruct (vbps_o a2 && vbps_o a4 && vbps_o a5); [|discriminate]. unfold put_stable, mmod in X |- *. inversion X; subst; clear X.
  eexists tt, _. split; [reflexivity|]. split; [exact I|].
  match goal with |- Rw _ (set_stable _ (fset p ?x _)) _ => destruct (sim_put_stable F p x w1 w2 [] [] tt _ [] W eq_refl (within_nil)) as (r & w & E & _ & W') end.
  unfold tf, put_stable, mmod in E. cbn in E. inversion E; subst. exact W'.
Qed.
#[local] Hint Resolve sim_stable_config : sims.

(** *** stake_rewards *)
Lemma sim_rewards_initialize k a s t mc mr mb : same_run (z_rewards_initialize k a s t mc mr mb).
Proof. unfold z_rewards_initialize. ahead k YInst Look. opens. repeat s2. Qed.
#[local] Hint Resolve sim_rewards_initialize : sims.
Lemma sim_update_rewards c r1 r2 u p0 p1 : rewardsrel F c r1 r2 -> F c YDistr -> F c YConfig ->
  sim (z_update_rewards c r1 u p0 p1) (z_update_rewards c r2 u p0 p1) (fun _ _ => True).
Proof.
  intros R D C. unfold z_update_rewards. opens. unfold update_rewards. destruct (p0 =? p1).
  - eapply sim_bind; [solve [lgz] | intros ?; solve [lgz] | apply (sim_lift _ _ _ (rewardsrel F c)) | intros ? ? R'; repeat s2].
    intros a X. inversion X; subst. eauto.
  - ahead c (YAdj u) Look.
    eapply sim_bind; [solve [lgz] | intros ?; solve [lgz] | apply (sim_lift _ _ _ (rewardsrel F c)) | intros ? ? R'; clear R; repeat s2].
    intros a X. rewrite (e_r_adj_of _ _ _ _ R Fy), (e_r_spp _ _ _ R D) in X. unfold rbind in X |- *.
    destruct (sub_i p1 p0) as [d|]; [|discriminate]. destruct (r_adj_of r2 u) as [corr wd]. destruct (u2i (r_spp r2)) as [sp|]; [|discriminate].
    destruct (mul_i sp d) as [m|]; [|discriminate]. destruct (sub_i corr m) as [co|]; [|discriminate].
    inversion X; subst. eexists. split; [reflexivity|]. rel_goal.
Qed.
#[local] Hint Resolve sim_update_rewards : sims.
Lemma sim_rewards_add_user e c k u b : same_run (z_rewards_add_user e c k u b).
Proof. unfold z_rewards_add_user. ahead k YInst Look. opens. repeat s2. Qed.
#[local] Hint Resolve sim_rewards_add_user : sims.
Lemma sim_rewards_bond e c k u b : same_run (z_rewards_bond e c k u b).
Proof. unfold z_rewards_bond. ahead k YInst Look. opens. repeat s2. Qed.
#[local] Hint Resolve sim_rewards_bond : sims.
Lemma sim_rewards_withdraw e c k u b : same_run (z_rewards_withdraw e c k u b).
Proof. unfold z_rewards_withdraw. ahead k YInst Look. opens. repeat s2; exact I. Qed.
#[local] Hint Resolve sim_rewards_withdraw : sims.

Lemma sim_rewards_query k u b : F k YInst -> F k YConfig -> F k YDistr -> F k (YAdj u) -> sim (tf (rewards_query k u b)) (tf (rewards_query k u b)) eq.
Proof.
  intros A B C D. apply sim_read. intros w1 w2 r1 w1' W X. pose proof (rw_same _ _ _ W _ _ A) as Z. simpl in Z. destruct Z as (Zc & _).
  unfold rewards_query, enter, is_code, mget, mbind, mguard in X |- *. rewrite Zc in X.
  destruct (match fget k (w_code w2) with Some k' => kind_eqb KRewards k' | None => false end); [|discriminate].
  cbn in X |- *. destruct (get_rewards k w1) as [[r w]|] eqn:G; [|discriminate].
  destruct (sim_get_rewards F k YConfig B eq_refl w1 w2 [] [] r w [] W) as (r' & w' & G' & R & W'); [unfold tf; cbn; rewrite G; reflexivity | intros x [] |].
  unfold tf in G'. cbn in G'. destruct (get_rewards k w2) as [[q w0]|] eqn:G2; [|discriminate]. inversion G'; subst; clear G'.
  assert (w = w1) by (unfold get_rewards in G; destruct (fget k (w_rewards w1)); inversion G; auto).
  assert (w' = w2) by (unfold get_rewards in G2; destruct (fget k (w_rewards w2)); inversion G2; auto). subst.
  unfold now, mgets, mlift in *. rewrite (e_reward_now _ _ _ (w_now w1) u b R B C D), (rw_now _ _ _ W) in X.
  destruct (reward_now r' (w_now w2) u b) as [x|]; [|discriminate]. destruct (i2u x); [|discriminate]. inversion X; subst. eauto.
Qed.
#[local] Hint Resolve sim_rewards_query : sims.
Lemma sim_rewards_unbond e c k u b x : same_run (z_rewards_unbond e c k u b x).
Proof.
  unfold z_rewards_unbond. ahead k YInst Look. repeat (s2; []).
  eapply sim_bind; [solve [lgz] | intros ?; solve [lgz] | | ].
  { match goal with |- Footprint.sim _ (if ?t then _ else _) _ _ => destruct t; [apply (sim_ret F tt tt (fun _ _ => True)); exact I | apply sim_rewards_withdraw] end. }
  repeat s2.
Qed.
#[local] Hint Resolve sim_rewards_unbond : sims.
Lemma sim_rewards_distribute e c k t : same_run (z_rewards_distribute e c k t).
Proof. unfold z_rewards_distribute. ahead k YInst Look. opens. repeat s2; exact I. Qed.
#[local] Hint Resolve sim_rewards_distribute : sims.
Lemma sim_rewards_fund e c k s d a : same_run (z_rewards_fund e c k s d a).
Proof. unfold z_rewards_fund. ahead k YInst Look. opens. repeat s2. Qed.
#[local] Hint Resolve sim_rewards_fund : sims.

(** *** vesting *)
Lemma fmem_key {V} (m : fmap V) j : fmem j m = true -> In j (map fst m).
Proof.
  unfold fmem. induction m as [|[k v] tl IH]; simpl; [discriminate|]. destruct (j <? k); [discriminate|].
  destruct (j =? k) eqn:E; [apply Z.eqb_eq in E; auto|]. auto.
Qed.
Lemma dense_len {V} (m : fmap V) n : (forall j, 0 <= j < Z.of_nat n -> fmem j m = true) -> (n <= length m)%nat.
Proof.
  intros H. rewrite <- (map_length fst m), <- (seq_length n 0), <- (map_length Z.of_nat (seq 0 n)). apply NoDup_incl_length.
  - apply FinFun.Injective_map_NoDup; [intros a b; apply Nat2Z.inj | apply seq_NoDup].
  - intros j I. apply in_map_iff in I as (i & <- & J). apply in_seq in J. apply fmem_key, H. lia.
Qed.
Lemma first_free_spec f : forall i m, i <= first_free f i m <= i + Z.of_nat f /\ (forall j, i <= j < first_free f i m -> fmem j m = true) /\
  (first_free f i m < i + Z.of_nat f -> fmem (first_free f i m) m = false).
Proof.
  induction f as [|f IH]; intros i m; cbn [first_free]; [repeat split; intros; lia|].
  destruct (fmem i m) eqn:E; [|repeat split; intros; auto; lia]. destruct (IH (i + 1) m) as (A & B & C). repeat split; try lia.
  - intros j J. destruct (Z.eq_dec j i) as [->|N]; [exact E | apply B; lia].
  all: try (intros L; apply C; lia).
Qed.
Lemma free_spec (m : fmap VInfo) (i := first_free (S (length m)) 0 m) : 0 <= i /\ fmem i m = false /\ forall j, 0 <= j < i -> fmem j m = true.
Proof.
  destruct (first_free_spec (S (length m)) 0 m) as (A & B & C). fold i in A, B, C. split; [lia|]. split; [|exact B]. apply C.
  destruct (Z.eq_dec i (0 + Z.of_nat (S (length m)))) as [E|]; [|lia]. pose proof (dense_len m (S (length m))) as P.
  assert (S (length m) <= length m)%nat by (apply P; intros j J; apply B; lia). lia.
Qed.
Lemma free_same (m1 m2 : fmap VInfo) : (forall j, 0 <= j <= first_free (S (length m1)) 0 m1 -> fget j m1 = fget j m2) ->
  first_free (S (length m1)) 0 m1 = first_free (S (length m2)) 0 m2.
Proof.
  destruct (free_spec m1) as (A1 & B1 & C1), (free_spec m2) as (A2 & B2 & C2). cbv zeta in *.
  set (i := first_free (S (length m1)) 0 m1) in *. set (j := first_free (S (length m2)) 0 m2) in *. intros H.
  destruct (Z.lt_trichotomy i j) as [L|[L|L]]; auto.
  - specialize (C2 i ltac:(lia)). unfold fmem in *. rewrite H in B1 by lia. congruence.
  - specialize (C1 j ltac:(lia)). unfold fmem in *. rewrite H in C1 by lia. congruence.
Qed.
Lemma in_indices n : forall i j, i <= j < i + Z.of_nat n -> In j (indices n i).
Proof.
  induction n as [|n IH]; intros i j H; [lia|]. cbn [indices]. destruct (Z.eq_dec j i) as [->|N]; [left; auto | right; apply IH; lia].
Qed.
Lemma v_entries_saved u x v a : v_entries (save_vesting u x v) a = if a =? u then fset (free_index v u) x (v_entries v u) else v_entries v a.
Proof.
  unfold save_vesting, v_entries at 1. cbn. rewrite fgetd_set. destruct (a =? u); reflexivity.
Qed.
Lemma rel_saved c u x v1 v2 : vestrel F c v1 v2 -> free_index v1 u = free_index v2 u -> vestrel F c (save_vesting u x v1) (save_vesting u x v2).
Proof.
  intros R E. constructor; [exact (vr_inst _ _ _ _ R) | exact (vr_admin _ _ _ _ R)|]. intros a i H. rewrite !v_entries_saved, E.
  destruct (a =? u) eqn:Ea; [|apply (vr_ent _ _ _ _ R _ _ H)]. apply Z.eqb_eq in Ea. subst a. rewrite !fget_set. destruct (i =? free_index v2 u); auto.
  apply (vr_ent _ _ _ _ R _ _ H).
Qed.
Lemma create_all_cons v u k tl tot : create_all v ((u, k) :: tl) tot =
  (let? amt := validate_schedule k in assert? negb (v_maxc v <=? csize k) or EContract 8 in
   let? tot' := add_u tot amt in create_all (save_vesting u (mkVInfo amt u k) v) tl tot').
Proof. reflexivity. Qed.
Lemma rel_create c l : F c YInst -> forall v1 v2, vestrel F c v1 v2 -> (forall k, In k (asked v1 l) -> F c k) ->
  asked v1 l = asked v2 l /\ created v1 l = created v2 l /\
  forall tot v t, create_all v1 l tot = Ok (v, t) -> exists v', create_all v2 l tot = Ok (v', t) /\ vestrel F c v v'.
Proof.
  intros Hi. induction l as [|[u k] tl IH]; intros v1 v2 R H; cbn [asked created create_all] in *.
  { repeat split; auto. intros tot v t X. inversion X; subst. exists v2. split; [reflexivity | exact R]. }
  assert (E : free_index v1 u = free_index v2 u).
  { unfold free_index. apply free_same. intros j J. apply (vr_ent _ _ _ _ R), H, in_or_app. left. apply in_map, in_indices.
    unfold free_index. lia. }
  destruct (IH (saved v1 u k) (saved v2 u k)) as (A & B & C).
  { apply rel_saved; auto. }
  { intros y I. apply H, in_or_app. auto. }
  rewrite A, B, E. split; [reflexivity|]. split; [reflexivity|]. intros tot v t X. unfold saved in C.
  rewrite create_all_cons in X |- *. rewrite (e_v_maxc _ _ _ R Hi) in X. unfold rbind in X |- *.
  destruct (validate_schedule k) as [amt|]; [|discriminate]. destruct (guard _ _); [|discriminate]. destruct (add_u tot amt) as [tot'|]; [|discriminate].
  apply (C tot' v t X).
Qed.
Lemma sim_aheads {A} L (m1 m2 : TST A) Q : (forall x, In x L -> emits x m1) -> (within F L -> sim m1 m2 Q) -> sim m1 m2 Q.
Proof.
  induction L as [|x tl IH]; intros E K; [apply K, within_nil|]. apply (sim_ahead F x); [apply E; left; auto|]. intros Fx.
  apply IH; [intros y I; apply E; right; auto|]. intros W. apply K, within_cons. auto.
Qed.
Lemma sim_vest_initialize k a t mc m : same_run (z_vest_initialize k a t mc m).
Proof. unfold z_vest_initialize. ahead k YInst Look. opens. repeat s2. Qed.
#[local] Hint Resolve sim_vest_initialize : sims.
Lemma sim_vest_create e c k l : same_run (z_vest_create e c k l).
Proof.
  unfold z_vest_create. ahead k YInst Look. opens. do 8 s2.
  match goal with |- Footprint.sim _ (mbind (mlift (create_all ?x _ _)) _) _ _ => set (v1 := x) in * end.
  match goal with |- Footprint.sim _ _ (mbind (mlift (create_all ?x _ _)) _) _ => set (v2 := x) in * end.
  apply (sim_aheads (map (fun y => mkT k y Has) (asked v1 l))).
  { intros x J. apply em_r; [solve [lgz] | intros [v' tot]]. do 3 (apply em_r; [solve [lgz] | intros ?]). apply em_l; [apply em_note; exact J | intros ?; solve [lgz]]. }
  intros W. destruct (rel_create k l Fy v1 v2) as (EA & EC & EV); [assumption | |].
  { intros y J. apply (W (mkT k y Has)). apply in_map_iff. eauto. }
  eapply sim_bind; [solve [lgz] | intros [? ?]; solve [lgz] | apply (sim_lift F _ _ (fun a b => vestrel F k (fst a) (fst b) /\ snd a = snd b)) | ].
  { intros [v t] X. destruct (EV 0 v t X) as (v' & Y & R'). exists (v', t). auto. }
  intros [u1 t1] [u2 t2] [R' E]. cbn [fst snd] in R', E. subst t2. rewrite EA, EC. repeat s2.
Qed.
#[local] Hint Resolve sim_vest_create : sims.
Lemma sim_vest_claim e c k u i : same_run (z_vest_claim e c k u i).
Proof. unfold z_vest_claim. ahead k YInst Look. ahead k (YVest u i) Look. opens. repeat s2. Qed.
#[local] Hint Resolve sim_vest_claim : sims.
Lemma sim_vest_burn e c k u a : same_run (z_vest_burn e c k u a).
Proof. unfold z_vest_burn. ahead k YInst Look. opens. repeat s2. Qed.
#[local] Hint Resolve sim_vest_burn : sims.
Lemma sim_vest_mint e c k u a : same_run (z_vest_mint e c k u a).
Proof. unfold z_vest_mint. ahead k YInst Look. opens. repeat s2.
Qed.
#[local] Hint Resolve sim_vest_mint : sims.
Lemma sim_vest_minter e c k u n : same_run (z_vest_update_minter e c k u n).
Proof.
  unfold z_vest_update_minter. ahead k YInst Look. opens. do 5 s2.
  match goal with |- context [v_minter ?v] => destruct (v_minter v) as [[m cap]|] eqn:? end.
  - eapply sim_bind; [solve [lgz] | intros ?; solve [lgz] | apply (sim_ret F tt tt (fun _ _ => True)); exact I | repeat s2].
  - repeat s2.
Qed.
#[local] Hint Resolve sim_vest_minter : sims.
Lemma sim_vest_capacity e c k u n : same_run (z_vest_update_capacity e c k u n).
Proof. unfold z_vest_update_capacity. ahead k YInst Look. opens. repeat s2. Qed.
#[local] Hint Resolve sim_vest_capacity : sims.

(** *** factory, router, trader *)
Lemma sim_hop_initialize h a f : same_run (z_hop_initialize h a f).
Proof. unfold z_hop_initialize. ahead h YInst Look. opens. repeat s2. Qed.
#[local] Hint Resolve sim_hop_initialize : sims.
Lemma sim_fact_initialize e f a lp sb sk tk wl d : same_run (z_fact_initialize e f a lp sb sk tk wl d).
Proof. unfold z_fact_initialize. ahead f YInst Look. opens. repeat s2. Qed.
#[local] Hint Resolve sim_fact_initialize : sims.
Lemma sim_fact_create e c f u i ty amp ds mf : sim (z_fact_create e c f u i ty amp ds mf) (z_fact_create e c f u i ty amp ds mf) eq.
Proof. unfold z_fact_create. ahead f YInst Look. opens. destruct ty; repeat s2; reflexivity. Qed.
#[local] Hint Resolve sim_fact_create : sims.
Lemma sim_pool_by_pair f a b : sim (z_fact_pool_by_pair f a b) (z_fact_pool_by_pair f a b) eq.
Proof.
  unfold z_fact_pool_by_pair. ahead f YInst Look. ahead f (YPair a b) Peek. do 2 s2.
  intros w1 w2 l1 l2 r1 w1' D W X I. unfold mbind, tf, get_fact, peek, tnote in *. cbn in *.
  pose proof (rw_same _ _ _ W _ _ Fy0) as Z. simpl in Z. unfold sub in Z.
  destruct (fget f (w_fact w1)) as [x|] eqn:E1; [|discriminate]. cbn in X. fold (pair_get x a b) in Z.
  destruct (pair_get x a b) as [p|] eqn:P.
  - inversion X as [[A1 A2 A3]]. subst. apply app_inv_head in A3. subst D.
    destruct (fget f (w_fact w2)) as [y|] eqn:E2; [|discriminate]. fold (pair_get y a b) in Z. rewrite <- Z. eexists _, w2. split; [reflexivity | auto].
  - destruct (pair_get x b a) as [p|] eqn:P2; [|discriminate]. inversion X as [[A1 A2 A3]]. subst. rewrite <- app_assoc in A3. apply app_inv_head in A3. subst D.
    assert (Fb : F f (YPair b a)) by (apply (I (mkT f (YPair b a) Peek)); right; left; reflexivity).
    pose proof (rw_same _ _ _ W _ _ Fb) as Z2. simpl in Z2. unfold sub in Z2. rewrite E1 in Z2. fold (pair_get x b a) in Z2. rewrite P2 in Z2.
    destruct (fget f (w_fact w2)) as [y|] eqn:E2; [|discriminate]. fold (pair_get y a b) in Z. fold (pair_get y b a) in Z2. cbn.
    rewrite <- Z, <- Z2. eexists _, w2. split; [unfold mret; cbn; rewrite <- app_assoc; reflexivity | auto].
Qed.
#[local] Hint Resolve sim_pool_by_pair : sims.
Lemma sim_any_swap e c p u o a mi ms dl mf : sim (z_any_swap e c p u o a mi ms dl mf) (z_any_swap e c p u o a mi ms dl mf) eq.
Proof.
  intros w1 w2 l1 l2 r1 w1' D W X I. unfold z_any_swap, mbind, tf, mget in X |- *. cbn in X |- *.
  assert (G : F p YInst -> fget p (w_code w1) = fget p (w_code w2)) by (intros H; apply (rw_same _ _ _ W _ _ H)).
  destruct (fget p (w_code w1)) as [k|] eqn:K; [|discriminate]. destruct k; try discriminate.
  - assert (E : emits (mkT p YInst Look) (z_pool_swap e c p u o a mi ms dl mf)) by (unfold z_pool_swap; emz).
    specialize (E w1 l1). rewrite X in E. destruct E as (D' & Y & J). apply app_inv_head in Y. subst D'.
    rewrite <- (G (I _ J)). apply (sim_pool_swap e c p u o a mi ms dl mf w1 w2 l1 l2 r1 w1' D W X I).
  - assert (E : emits (mkT p YInst Look) (z_stable_swap e c p u o a mi ms dl mf)) by (unfold z_stable_swap; emz).
    specialize (E w1 l1). rewrite X in E. destruct E as (D' & Y & J). apply app_inv_head in Y. subst D'.
    rewrite <- (G (I _ J)). apply (sim_stable_swap e c p u o a mi ms dl mf w1 w2 l1 l2 r1 w1' D W X I).
Qed.
#[local] Hint Resolve sim_any_swap : sims.
Lemma sim_hop_swaps e h f u ms dl mf ops : forall a, sim (z_hop_swaps e h f u ops a ms dl mf) (z_hop_swaps e h f u ops a ms dl mf) eq.
Proof.
  induction ops as [|o tl IH]; intros a; cbn [z_hop_swaps]; [apply sim_ret; reflexivity|]. do 2 s2. apply IH.
Qed.
#[local] Hint Resolve sim_hop_swaps : sims.
Lemma sim_hop_swap e c h u ops ms a dl mf : sim (z_hop_swap e c h u ops ms a dl mf) (z_hop_swap e c h u ops ms a dl mf) eq.
Proof. unfold z_hop_swap. ahead h YInst Look. repeat (s2; []). apply sim_hop_swaps. Qed.
#[local] Hint Resolve sim_hop_swap : sims.
Lemma sim_trader_initialize e c d a x y o : same_run (z_trader_initialize e c d a x y o).
Proof. unfold z_trader_initialize. ahead d YInst Look. opens. repeat s2. Qed.
#[local] Hint Resolve sim_trader_initialize : sims.
Lemma sim_trader_trade e c d u t p a ms dl mi mf : sim (z_trader_trade e c d u t p a ms dl mi mf) (z_trader_trade e c d u t p a ms dl mi mf) eq.
Proof.
  unfold z_trader_trade. ahead d YInst Look. repeat (s2; []).
  eapply sim_bind; [solve [lgz] | intros ?; solve [lgz] | instantiate (1 := eq); destruct a; [apply sim_ret; reflexivity | apply sim_balance] |].
  intros x ? <-. apply sim_any_swap.
Qed.
#[local] Hint Resolve sim_trader_trade : sims.
Lemma sim_trader_transfer e c d u r a t : same_run (z_trader_transfer e c d u r a t).
Proof. unfold z_trader_transfer. ahead d YInst Look. destruct t; repeat s2. Qed.
#[local] Hint Resolve sim_trader_transfer : sims.

(** *** settings *)
Lemma sim_pool_config e c p a1 a2 a3 a4 a5 a6 : same_run (z_pool_update_config e c p a1 a2 a3 a4 a5 a6).
Proof. unfold z_pool_update_config. ahead p YInst Look. opens. destruct a1; repeat s2. Qed.
Lemma sim_pool_update e c p h : same_run (z_pool_update e c p h).
Proof. unfold z_pool_update. ahead p YInst Look. opens. repeat s2. Qed.
Lemma sim_pool_upgrade e c p h d : same_run (z_pool_upgrade e c p h d).
Proof. unfold z_pool_upgrade. ahead p YInst Look. opens. repeat s2. Qed.
Lemma sim_stable_upgrade e c p h : same_run (z_stable_upgrade e c p h).
Proof. unfold z_stable_upgrade. ahead p YInst Look. opens. repeat s2. Qed.
Lemma sim_stake_update e c p h : same_run (z_stake_update e c p h).
Proof. unfold z_stake_update. ahead p YInst Look. opens. repeat s2. Qed.
Lemma sim_rewards_update e c p h : same_run (z_rewards_update e c p h).
Proof. unfold z_rewards_update. ahead p YInst Look. opens. repeat s2. Qed.
Lemma sim_vest_update e c p h : same_run (z_vest_update e c p h).
Proof. unfold z_vest_update. ahead p YInst Look. opens. repeat s2. Qed.
Lemma sim_fact_whitelist e c f u a r : same_run (z_fact_update_whitelist e c f u a r).
Proof. unfold z_fact_update_whitelist. ahead f YInst Look. opens. repeat s2. Qed.
Lemma sim_fact_hashes e c f a b d : same_run (z_fact_update_hashes e c f a b d).
Proof. unfold z_fact_update_hashes. ahead f YInst Look. opens. repeat s2. Qed.
Lemma sim_fact_update e c f h s : same_run (z_fact_update e c f h s).
Proof. unfold z_fact_update. ahead f YInst Look. opens. repeat s2. Qed.
Lemma sim_hop_update e c h x : same_run (z_hop_update e c h x).
Proof. unfold z_hop_update. ahead h YInst Look. opens. repeat s2. Qed.

Lemma sim_drop {A} (m : TST A) : grow m -> sim m m eq -> same_run (z_drop m).
Proof.
  intros G S. unfold z_drop. eapply sim_bind; [exact G | intros ?; solve [lgz] | exact S | intros ? ? _; apply sim_ret; exact I].
Qed.
Lemma sim_zexec e k : same_run (zexec e k).
Proof.
  destruct k; unfold zexec; try (apply sim_drop; [solve [lgz] |]); try (destruct k); auto using sim_pool_config, sim_pool_update, sim_pool_upgrade,
    sim_stable_upgrade, sim_stake_update, sim_rewards_update, sim_vest_update, sim_fact_whitelist, sim_fact_hashes, sim_fact_update,
    sim_hop_update, sim_fail with sims.
Qed.
End Calls.
