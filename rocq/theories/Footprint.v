(** What a call depends on.  [same w1 w2 c y] says that the storage entry of contract [c] under
    the key [y] (Touch.v) holds the same in the ledgers [w1] and [w2].  The file proves, for every
    entry point, that the outcome is the same in any two ledgers which agree on the entries that
    the record of the call lists.  The two ledgers are arbitrary: nothing is assumed about how
    they came about. *)
From Coq Require Import ZArith List Bool Lia.
From Verif Require Import Base FMap Decimal Curve World Token Stake Pool Stable Rewards Vest Factory Router System.
From Verif Require Import Touch TouchErase Life TouchCover TouchGrow LifeLemmas TouchLogs.
Import ListNotations.
Open Scope list_scope.
Open Scope Z_scope.

(** ** The content of entries *)
(** the fields stored together; which key stands for which storage entry is cited at [Key] in Touch.v *)
Definition pool_config (p : Pool) := (p_ta p, p_tb p, p_share p, p_stake p, p_fee p, p_feerec p, p_maxslip p, p_maxspread p, p_maxref p).
Definition stake_config (s : Stake) := (s_lp s, s_minbond s, s_minreward s, s_manager s, s_owner s, s_maxc s).
Definition rewards_config (r : Rewards) := (r_staking r, r_token r, r_maxc r, r_minreward r, r_minbond r).
(** the distribution is stored under the reward token's address *)
Definition distribution (r : Rewards) := (r_token r, r_spp r, r_left r, r_dist r, r_wdr r).
Definition fact_config (f : Fact) := (f_admin f, f_hop f, f_lphash f, f_stakehash f, f_tokhash f, f_white f, f_lpdec f).
(** instance storage; the allowances of a token are temporary entries, which the records do not
    list: they are counted here with the token's instance.  The ghost totals of a token are no storage. *)
Definition token_inst (k : Token) := (t_admin k, t_dec k, t_allow k).
Definition vest_inst (v : Vest) := (v_token v, v_maxc v, v_minter v).
Definition fld {V X} (f : V -> X) (c : Addr) (m : fmap V) : option X := option_map f (fget c m).
Definition sub {V X} (f : V -> fmap X) (c u : Addr) (m : fmap V) : option X :=
  match fget c m with Some v => fget u (f v) | None => None end.

(** no entry reads as no flows: stake/storage.rs:131-143 *)
Definition dists_of (c : Addr) (w : World) : list Addr := match fget c (w_stake w) with Some s => s_dists s | None => [] end.

Definition same (w1 w2 : World) (c : Addr) (y : Key) : Prop :=
  match y with
  | YInst => fget c (w_code w1) = fget c (w_code w2) /\ fget c (w_wasm w1) = fget c (w_wasm w2) /\
             fld token_inst c (w_tok w1) = fld token_inst c (w_tok w2) /\ fget c (w_stable w1) = fget c (w_stable w2) /\
             fmem c (w_stake w1) = fmem c (w_stake w2) /\ fld vest_inst c (w_vest w1) = fld vest_inst c (w_vest w2) /\
             fget c (w_hop w1) = fget c (w_hop w2)
  | YInit => fmem c (w_pool w1) = fmem c (w_pool w2) /\ fmem c (w_stable w1) = fmem c (w_stable w2) /\
             fmem c (w_rewards w1) = fmem c (w_rewards w2) /\ fmem c (w_fact w1) = fmem c (w_fact w2) /\
             fmem c (w_hop w1) = fmem c (w_hop w2) /\ fmem c (w_trader w1) = fmem c (w_trader w2)
  | YConfig => fld pool_config c (w_pool w1) = fld pool_config c (w_pool w2) /\ fld stake_config c (w_stake w1) = fld stake_config c (w_stake w2) /\
               fld rewards_config c (w_rewards w1) = fld rewards_config c (w_rewards w2) /\ fld fact_config c (w_fact w1) = fld fact_config c (w_fact w2)
  | YAdmin => fld p_admin c (w_pool w1) = fld p_admin c (w_pool w2) /\ fld s_admin c (w_stake w1) = fld s_admin c (w_stake w2) /\
              fld r_admin c (w_rewards w1) = fld r_admin c (w_rewards w2) /\ fld v_admin c (w_vest w1) = fld v_admin c (w_vest w2) /\
              fld d_admin c (w_trader w1) = fld d_admin c (w_trader w2)
  | YTotal => fld p_total c (w_pool w1) = fld p_total c (w_pool w2)
  | YResA => fld p_ra c (w_pool w1) = fld p_ra c (w_pool w2)
  | YResB => fld p_rb c (w_pool w1) = fld p_rb c (w_pool w2)
  | YSlip => fld p_defslip c (w_pool w1) = fld p_defslip c (w_pool w2)
  | YStaked => fld s_total c (w_stake w1) = fld s_total c (w_stake w2)
  | YTotHist => fld s_tsh c (w_stake w1) = fld s_tsh c (w_stake w2)
  | YDists => dists_of c w1 = dists_of c w2
  | YHist a => sub s_rh c a (w_stake w1) = sub s_rh c a (w_stake w2)
  | YUser u => sub s_users c u (w_stake w1) = sub s_users c u (w_stake w2)
  | YCurve => fld r_curve c (w_rewards w1) = fld r_curve c (w_rewards w2)
  | YDistr => fld distribution c (w_rewards w1) = fld distribution c (w_rewards w2)
  | YAdj u => sub r_adj c u (w_rewards w1) = sub r_adj c u (w_rewards w2)
  | YVest u i => sub (fun v => v_entries v u) c i (w_vest w1) = sub (fun v => v_entries v u) c i (w_vest w2)
  | YLps => fld f_lps c (w_fact w1) = fld f_lps c (w_fact w2)
  | YStab => fld f_stabhash c (w_fact w1) = fld f_stabhash c (w_fact w2)
  | YPair a b => sub (fun f => fgetd fempty a (f_pairs f)) c b (w_fact w1) = sub (fun f => fgetd fempty a (f_pairs f)) c b (w_fact w2)
  | YName => fmem c (w_trader w1) = fmem c (w_trader w2)
  | YTPair => fld (fun d => (d_ta d, d_tb d)) c (w_trader w1) = fld (fun d => (d_ta d, d_tb d)) c (w_trader w2)
  | YTOut => fld d_out c (w_trader w1) = fld d_out c (w_trader w2)
  | YBal u => sub t_bal c u (w_tok w1) = sub t_bal c u (w_tok w2)
  end.

Lemma same_refl w c y : same w w c y.
Proof. destruct y; simpl; repeat split. Qed.
Lemma same_sym w1 w2 c y : same w1 w2 c y -> same w2 w1 c y.
Proof. destruct y; simpl; try (intros; symmetry; assumption); intuition auto. Qed.
Lemma same_trans w1 w2 w3 c y : same w1 w2 c y -> same w2 w3 c y -> same w1 w3 c y.
Proof. destruct y; simpl; try (intros; congruence); intros A B; decompose [and] A; decompose [and] B; repeat split; congruence. Qed.

Section Sim.
Variable F : Addr -> Key -> Prop.
Definition within (D : list Touch) : Prop := forall x, In x D -> F (x_at x) (x_key x).
Record Rw (w1 w2 : World) : Prop := {
  rw_now : w_now w1 = w_now w2;
  rw_seq : w_seq w1 = w_seq w2;
  rw_same : forall c y, F c y -> same w1 w2 c y }.
Definition grow {A} (m : TST A) : Prop := logs (fun _ => True) m.
Definition sim {A} (m1 m2 : TST A) (Q : A -> A -> Prop) : Prop := forall w1 w2 l1 l2 r1 w1' D,
  Rw w1 w2 -> m1 (w1, l1) = Ok (r1, (w1', l1 ++ D)) -> within D ->
  exists r2 w2', m2 (w2, l2) = Ok (r2, (w2', l2 ++ D)) /\ Q r1 r2 /\ Rw w1' w2'.

Lemma sim_bind {A B} (m1 m2 : TST A) (k1 k2 : A -> TST B) Q R : grow m1 -> (forall a, grow (k1 a)) ->
  sim m1 m2 Q -> (forall a b, Q a b -> sim (k1 a) (k2 b) R) -> sim (mbind m1 k1) (mbind m2 k2) R.
Proof.
  intros G1 G2 S K w1 w2 l1 l2 r1 w1' D W X I. unfold mbind in *. pose proof (G1 w1 l1) as G.
  destruct (m1 (w1, l1)) as [[a [wa la]]|] eqn:E1; [|discriminate]. destruct G as (D1 & -> & _).
  pose proof (G2 a wa (l1 ++ D1)) as G. rewrite X in G. destruct G as (D2 & E & _). rewrite <- app_assoc in E. apply app_inv_head in E. subst D.
  rewrite app_assoc in X. destruct (S w1 w2 l1 l2 a wa D1 W E1) as (b & wb & Y & Qab & W').
  { intros x J. apply I, in_or_app. auto. }
  rewrite Y. destruct (K a b Qab wa wb _ (l2 ++ D1) _ _ D2 W' X) as (r & wr & Z & Rr & W2).
  { intros x J. apply I, in_or_app. auto. }
  exists r, wr. rewrite Z, app_assoc. auto.
Qed.
Lemma sim_ahead {A} x (m1 m2 : TST A) Q : emits x m1 -> (F (x_at x) (x_key x) -> sim m1 m2 Q) -> sim m1 m2 Q.
Proof.
  intros E K w1 w2 l1 l2 r1 w1' D W X I. pose proof (E w1 l1) as G. rewrite X in G. destruct G as (D' & Y & J).
  apply app_inv_head in Y. subst D'. apply (K (I _ J)) with (w1 := w1) (l1 := l1); auto.
Qed.
Lemma sim_post {A} (m1 m2 : TST A) (Q R : A -> A -> Prop) : sim m1 m2 Q -> (forall a b, Q a b -> R a b) -> sim m1 m2 R.
Proof. intros S K w1 w2 l1 l2 r1 w1' D W X I. destruct (S _ _ _ l2 _ _ _ W X I) as (r & w' & Y & Z & T). eauto 6. Qed.
Lemma sim_ret {A} (a b : A) (Q : A -> A -> Prop) : Q a b -> sim (mret a) (mret b) Q.
Proof.
  intros H w1 w2 l1 l2 r1 w1' D W X I. unfold mret in *. inversion X as [[A1 A2 A3]]. subst.
  rewrite <- (app_nil_r l1) in A3 at 1. apply app_inv_head in A3. subst D. exists b, w2. rewrite app_nil_r. auto.
Qed.
Lemma sim_lift {A} (r1 r2 : res A) (Q : A -> A -> Prop) : (forall a, r1 = Ok a -> exists b, r2 = Ok b /\ Q a b) -> sim (mlift r1) (mlift r2) Q.
Proof.
  intros H w1 w2 l1 l2 x w1' D W X I. unfold mlift in *. destruct r1 as [a|]; [|discriminate]. destruct (H a eq_refl) as (b & -> & Qb).
  apply (sim_ret a b Q Qb w1 w2 l1 l2 x w1' D W X I).
Qed.
Lemma sim_lift_eq {A} (r : res A) : sim (mlift r) (mlift r) eq.
Proof. apply sim_lift. eauto. Qed.
Lemma sim_guard b1 b2 e1 e2 : (b1 = true -> b2 = true) -> sim (mguard b1 e1) (mguard b2 e2) (fun _ _ => b1 = true).
Proof.
  intros H w1 w2 l1 l2 x w1' D W X I. unfold mguard in *. destruct b1; [|discriminate]. rewrite H by auto.
  apply (sim_ret tt tt (fun _ _ => true = true) eq_refl w1 w2 l1 l2 x w1' D W X I).
Qed.
Lemma sim_fail {A} e1 (m2 : TST A) Q : sim (mfail e1) m2 Q.
Proof. intros w1 w2 l1 l2 x w1' D W X. discriminate. Qed.
Lemma sim_note D0 : sim (tnote D0) (tnote D0) (fun _ _ => within D0).
Proof.
  intros w1 w2 l1 l2 r1 w1' D W X I. unfold tnote in *. cbn in *. inversion X as [[A1 A2 A3]]. subst. apply app_inv_head in A3. subst D0.
  eexists _, w2. auto.
Qed.
(** state of the ledger *)
Lemma sim_tf {A} (m1 m2 : ST World A) (Q : A -> A -> Prop) :
  (forall w1 w2 r1 w1', Rw w1 w2 -> m1 w1 = Ok (r1, w1') -> exists r2 w2', m2 w2 = Ok (r2, w2') /\ Q r1 r2 /\ Rw w1' w2') ->
  sim (tf m1) (tf m2) Q.
Proof.
  intros H w1 w2 l1 l2 r1 w1' D W X I. unfold tf in *. cbn in *. destruct (m1 w1) as [[a w]|] eqn:E; [|discriminate].
  inversion X as [[A1 A2 A3]]. subst. rewrite <- (app_nil_r l1) in A3 at 1. apply app_inv_head in A3. subst D.
  destruct (H _ _ _ _ W E) as (b & w' & Y & Z & T). rewrite Y. exists b, w'. rewrite app_nil_r. auto.
Qed.
(** a read *)
Lemma sim_read {A} (m : ST World A) (Q : A -> A -> Prop) :
  (forall w1 w2 r1 w1', Rw w1 w2 -> m w1 = Ok (r1, w1') -> w1' = w1 /\ exists r2, m w2 = Ok (r2, w2) /\ Q r1 r2) -> sim (tf m) (tf m) Q.
Proof. intros H. apply sim_tf. intros w1 w2 r1 w1' W X. destruct (H _ _ _ _ W X) as [-> (r2 & Y & Z)]. exists r2, w2. auto. Qed.
Lemma sim_mget : sim (tf mget) (tf mget) Rw.
Proof. apply sim_read. intros w1 w2 r1 w1' W X. unfold mget in *. inversion X; subst. split; auto. exists w2. auto. Qed.
Lemma sim_now : sim (tf now) (tf now) eq.
Proof. apply sim_read. intros w1 w2 r1 w1' W X. unfold now, mgets in *. inversion X; subst. split; auto. exists (w_now w2). rewrite (rw_now _ _ W). auto. Qed.
Lemma sim_auth e c a : sim (tf (require_auth e c a)) (tf (require_auth e c a)) (fun _ _ => True).
Proof.
  apply sim_read. intros w1 w2 r1 w1' W X. unfold require_auth, mguard in *. destruct (authed e c a); [|discriminate]. inversion X; subst.
  split; auto. exists tt. auto.
Qed.
Lemma sim_deadline n dl : sim (tf (check_deadline n dl)) (tf (check_deadline n dl)) (fun _ _ => True).
Proof.
  apply sim_read. intros w1 w2 r1 w1' W X. unfold check_deadline, now, mgets, mguard, mbind in *. rewrite (rw_now _ _ W) in X.
  destruct (match dl with Some d => negb (d <? w_now w2) | None => true end); [|discriminate]. inversion X; subst. split; auto. exists tt. auto.
Qed.
Lemma sim_enter c k : F c YInst -> sim (tf (enter c k)) (tf (enter c k)) (fun _ _ => True).
Proof.
  intros H. apply sim_read. intros w1 w2 r1 w1' W X. destruct (rw_same _ _ W _ _ H) as [E _]. unfold enter, mget, mbind, mguard, is_code in *.
  rewrite E in X. destruct (match fget c (w_code w2) with Some k' => kind_eqb k k' | None => false end); [|discriminate].
  inversion X; subst. split; auto. exists tt. auto.
Qed.

(** ** Contract records that agree on the listed entries *)
Record poolrel c (p q : Pool) : Prop := {
  pr_config : F c YConfig -> pool_config p = pool_config q;
  pr_admin : F c YAdmin -> p_admin p = p_admin q;
  pr_slip : F c YSlip -> p_defslip p = p_defslip q;
  pr_total : F c YTotal -> p_total p = p_total q;
  pr_ra : F c YResA -> p_ra p = p_ra q;
  pr_rb : F c YResB -> p_rb p = p_rb q }.
Record stakerel c (p q : Stake) : Prop := {
  kr_config : F c YConfig -> stake_config p = stake_config q;
  kr_admin : F c YAdmin -> s_admin p = s_admin q;
  kr_total : F c YStaked -> s_total p = s_total q;
  kr_tsh : F c YTotHist -> s_tsh p = s_tsh q;
  kr_dists : F c YDists -> s_dists p = s_dists q;
  kr_rh : forall a, F c (YHist a) -> fget a (s_rh p) = fget a (s_rh q);
  kr_users : forall a, F c (YUser a) -> fget a (s_users p) = fget a (s_users q) }.
Record rewardsrel c (p q : Rewards) : Prop := {
  rr_config : F c YConfig -> rewards_config p = rewards_config q;
  rr_admin : F c YAdmin -> r_admin p = r_admin q;
  rr_distr : F c YDistr -> distribution p = distribution q;
  rr_curve : F c YCurve -> r_curve p = r_curve q;
  rr_adj : forall a, F c (YAdj a) -> fget a (r_adj p) = fget a (r_adj q) }.
Record vestrel c (p q : Vest) : Prop := {
  vr_inst : F c YInst -> vest_inst p = vest_inst q;
  vr_admin : F c YAdmin -> v_admin p = v_admin q;
  vr_ent : forall u i, F c (YVest u i) -> fget i (v_entries p u) = fget i (v_entries q u) }.
Record factrel c (p q : Fact) : Prop := {
  fr_config : F c YConfig -> fact_config p = fact_config q;
  fr_lps : F c YLps -> f_lps p = f_lps q;
  fr_stab : F c YStab -> f_stabhash p = f_stabhash q;
  fr_pair : forall a b, F c (YPair a b) -> pair_get p a b = pair_get q a b }.
Record traderrel c (p q : Trader) : Prop := {
  dr_admin : F c YAdmin -> d_admin p = d_admin q;
  dr_pair : F c YTPair -> d_ta p = d_ta q /\ d_tb p = d_tb q;
  dr_out : F c YTOut -> d_out p = d_out q }.
Record tokrel c (p q : Token) : Prop := {
  tr_inst : F c YInst -> token_inst p = token_inst q;
  tr_bal : forall u, F c (YBal u) -> fget u (t_bal p) = fget u (t_bal q) }.

Lemma fld_some {V X} (f : V -> X) c (m1 m2 : fmap V) x : fld f c m1 = fld f c m2 -> fget c m1 = Some x -> exists y, fget c m2 = Some y.
Proof. unfold fld. intros E G. rewrite G in E. destruct (fget c m2); [eauto | discriminate]. Qed.
Lemma fmem_some {V} c (m1 m2 : fmap V) x : fmem c m1 = fmem c m2 -> fget c m1 = Some x -> exists y, fget c m2 = Some y.
Proof. unfold fmem. intros E G. rewrite G in E. destruct (fget c m2); [eauto | discriminate]. Qed.
Lemma fld_eq {V X} (f : V -> X) c (m1 m2 : fmap V) x y : fget c m1 = Some x -> fget c m2 = Some y -> fld f c m1 = fld f c m2 -> f x = f y.
Proof. unfold fld. intros -> ->. simpl. congruence. Qed.
Lemma sub_eq {V X} (f : V -> fmap X) c u (m1 m2 : fmap V) x y : fget c m1 = Some x -> fget c m2 = Some y -> sub f c u m1 = sub f c u m2 -> fget u (f x) = fget u (f y).
Proof. unfold sub. intros -> ->. auto. Qed.

Ltac relations W := constructor; intros; match goal with H : F _ _ |- _ => pose proof (rw_same _ _ W _ _ H) as Z; simpl in Z end;
  repeat match goal with Z : _ /\ _ |- _ => destruct Z end;
  try match goal with G : fget ?c ?m1 = Some _, G2 : fget ?c ?m2 = Some _, Z : fld ?f ?c ?m1 = fld ?f ?c ?m2 |- _ => apply (fld_eq f c m1 m2 _ _ G G2 Z) end;
  try match goal with G : fget ?c ?m1 = Some _, G2 : fget ?c ?m2 = Some _, Z : sub ?f ?c _ ?m1 = sub ?f ?c _ ?m2 |- _ => apply (sub_eq f c _ m1 m2 _ _ G G2 Z) end.

Definition pool_key (y : Key) : bool := match y with YConfig | YAdmin | YTotal | YResA | YResB | YSlip => true | _ => false end.
Lemma sim_get_pool c y : F c y -> pool_key y = true -> sim (tf (get_pool c)) (tf (get_pool c)) (poolrel c).
Proof.
  intros H K. apply sim_read. intros w1 w2 r1 w1' W X. unfold get_pool in *. destruct (fget c (w_pool w1)) as [p|] eqn:G; [|discriminate].
  inversion X; subst; clear X. split; auto.
  assert (exists q, fget c (w_pool w2) = Some q) as [q G2].
  { pose proof (rw_same _ _ W _ _ H) as Z. destruct y; try discriminate; simpl in Z; try (destruct Z as (Z & _)); eapply fld_some; eauto. }
  rewrite G2. exists q. split; auto. relations W.
Qed.
Definition stake_key (y : Key) : bool := match y with YInst | YConfig | YAdmin | YStaked | YTotHist => true | _ => false end.
Lemma sim_get_stake c y : F c y -> stake_key y = true -> sim (tf (get_stake c)) (tf (get_stake c)) (stakerel c).
Proof.
  intros H K. apply sim_read. intros w1 w2 r1 w1' W X. unfold get_stake in *. destruct (fget c (w_stake w1)) as [p|] eqn:G; [|discriminate].
  inversion X; subst; clear X. split; auto.
  assert (exists q, fget c (w_stake w2) = Some q) as [q G2].
  { pose proof (rw_same _ _ W _ _ H) as Z. destruct y; try discriminate; simpl in Z; decompose [and] Z; try (eapply fld_some; eauto; fail). eapply fmem_some; eauto. }
  rewrite G2. exists q. split; auto. relations W. unfold dists_of in Z. rewrite G, G2 in Z. exact Z.
Qed.
Definition rewards_key (y : Key) : bool := match y with YConfig | YAdmin | YDistr | YCurve => true | _ => false end.
Lemma sim_get_rewards c y : F c y -> rewards_key y = true -> sim (tf (get_rewards c)) (tf (get_rewards c)) (rewardsrel c).
Proof.
  intros H K. apply sim_read. intros w1 w2 r1 w1' W X. unfold get_rewards in *. destruct (fget c (w_rewards w1)) as [p|] eqn:G; [|discriminate].
  inversion X; subst; clear X. split; auto.
  assert (exists q, fget c (w_rewards w2) = Some q) as [q G2].
  { pose proof (rw_same _ _ W _ _ H) as Z. destruct y; try discriminate; simpl in Z; decompose [and] Z; eapply fld_some; eauto. }
  rewrite G2. exists q. split; auto. relations W.
Qed.
Lemma sim_get_vest c : F c YInst -> sim (tf (get_vest c)) (tf (get_vest c)) (vestrel c).
Proof.
  intros H. apply sim_read. intros w1 w2 r1 w1' W X. unfold get_vest in *. destruct (fget c (w_vest w1)) as [p|] eqn:G; [|discriminate].
  inversion X; subst; clear X. split; auto.
  assert (exists q, fget c (w_vest w2) = Some q) as [q G2].
  { pose proof (rw_same _ _ W _ _ H) as Z. simpl in Z; decompose [and] Z; eapply fld_some; eauto. }
  rewrite G2. exists q. split; auto. relations W.
Qed.
Definition fact_key (y : Key) : bool := match y with YConfig | YLps | YStab => true | _ => false end.
Lemma sim_get_fact c y : F c y -> fact_key y = true -> sim (tf (get_fact c)) (tf (get_fact c)) (factrel c).
Proof.
  intros H K. apply sim_read. intros w1 w2 r1 w1' W X. unfold get_fact in *. destruct (fget c (w_fact w1)) as [p|] eqn:G; [|discriminate].
  inversion X; subst; clear X. split; auto.
  assert (exists q, fget c (w_fact w2) = Some q) as [q G2].
  { pose proof (rw_same _ _ W _ _ H) as Z. destruct y; try discriminate; simpl in Z; decompose [and] Z; eapply fld_some; eauto. }
  rewrite G2. exists q. split; auto. relations W.
Qed.
Definition trader_key (y : Key) : bool := match y with YAdmin | YTPair | YTOut => true | _ => false end.
Lemma sim_get_trader c y : F c y -> trader_key y = true -> sim (tf (get_trader c)) (tf (get_trader c)) (traderrel c).
Proof.
  intros H K. apply sim_read. intros w1 w2 r1 w1' W X. unfold get_trader in *. destruct (fget c (w_trader w1)) as [p|] eqn:G; [|discriminate].
  inversion X; subst; clear X. split; auto.
  assert (exists q, fget c (w_trader w2) = Some q) as [q G2].
  { pose proof (rw_same _ _ W _ _ H) as Z. destruct y; try discriminate; simpl in Z; decompose [and] Z; eapply fld_some; eauto. }
  rewrite G2. exists q. split; auto. relations W. unfold fld in Z. rewrite G, G2 in Z. simpl in Z. inversion Z. auto.
Qed.
Lemma sim_get_tok c : F c YInst -> sim (tf (get_tok c)) (tf (get_tok c)) (tokrel c).
Proof.
  intros H. apply sim_read. intros w1 w2 r1 w1' W X. unfold get_tok in *. destruct (fget c (w_tok w1)) as [p|] eqn:G; [|discriminate].
  inversion X; subst; clear X. split; auto.
  assert (exists q, fget c (w_tok w2) = Some q) as [q G2].
  { pose proof (rw_same _ _ W _ _ H) as Z. simpl in Z; decompose [and] Z; eapply fld_some; eauto. }
  rewrite G2. exists q. split; auto. relations W.
Qed.
Lemma sim_get_stable c : F c YInst -> sim (tf (get_stable c)) (tf (get_stable c)) eq.
Proof.
  intros H. apply sim_read. intros w1 w2 r1 w1' W X. unfold get_stable in *. pose proof (rw_same _ _ W _ _ H) as Z. simpl in Z. decompose [and] Z.
  destruct (fget c (w_stable w1)) as [p|] eqn:G; [|discriminate]. inversion X; subst; clear X. split; auto. exists r1.
  replace (fget c (w_stable w2)) with (Some r1) by congruence. auto.
Qed.
Lemma sim_get_hop c : F c YInst -> sim (tf (get_hop c)) (tf (get_hop c)) eq.
Proof.
  intros H. apply sim_read. intros w1 w2 r1 w1' W X. unfold get_hop in *. pose proof (rw_same _ _ W _ _ H) as Z. simpl in Z. decompose [and] Z.
  destruct (fget c (w_hop w1)) as [p|] eqn:G; [|discriminate]. inversion X; subst; clear X. split; auto. exists r1.
  replace (fget c (w_hop w2)) with (Some r1) by congruence. auto.
Qed.

(** writing records that agree on the listed entries *)
Ltac puts_rel := intros R0; apply sim_tf; intros w1 w2 r1 w1' W X; inversion X; subst; clear X;
  eexists tt, _; split; [reflexivity|]; split; [exact I|];
  constructor; [exact (rw_now _ _ W) | exact (rw_seq _ _ W) |];
  intros c' y' Fy; pose proof (rw_same _ _ W _ _ Fy) as Z; destruct R0; destruct y'; cbn in Z |- *; unfold fld, sub, dists_of in *; cbn;
  rewrite ?fget_set, ?fmem_set; try exact Z;
  match goal with |- context [?a =? ?b] => destruct (a =? b) eqn:E; [apply Z.eqb_eq in E; subst | exact Z] end;
  cbn; repeat match goal with H : _ /\ _ |- _ => destruct H end; repeat split; auto; try congruence.
Lemma sim_put_pool c p q : poolrel c p q -> sim (tf (put_pool c p)) (tf (put_pool c q)) (fun _ _ => True).
Proof. puts_rel; f_equal; auto. Qed.
Lemma sim_put_stake c p q : stakerel c p q -> sim (tf (put_stake c p)) (tf (put_stake c q)) (fun _ _ => True).
Proof. puts_rel; f_equal; auto. Qed.
Lemma sim_put_rewards c p q : rewardsrel c p q -> sim (tf (put_rewards c p)) (tf (put_rewards c q)) (fun _ _ => True).
Proof. puts_rel; f_equal; auto. Qed.
Lemma sim_put_vest c p q : vestrel c p q -> sim (tf (put_vest c p)) (tf (put_vest c q)) (fun _ _ => True).
Proof. puts_rel; f_equal; auto. Qed.
Lemma sim_put_fact c p q : factrel c p q -> sim (tf (put_fact c p)) (tf (put_fact c q)) (fun _ _ => True).
Proof. puts_rel; match goal with H : forall a b, F c (YPair a b) -> _, Y : F c (YPair _ _) |- _ => exact (H _ _ Y) | _ => f_equal; auto end. Qed.
Lemma sim_put_trader c p q : traderrel c p q -> sim (tf (put_trader c p)) (tf (put_trader c q)) (fun _ _ => True).
Proof. puts_rel; try (f_equal; auto). destruct (dr_pair0 Fy); congruence. Qed.
Lemma sim_put_tok c p q : tokrel c p q -> sim (tf (put_tok c p)) (tf (put_tok c q)) (fun _ _ => True).
Proof. puts_rel; f_equal; auto. Qed.
Lemma sim_put_stable c p : sim (tf (put_stable c p)) (tf (put_stable c p)) (fun _ _ => True).
Proof. assert (R0 : True /\ True) by auto. revert R0. puts_rel. Qed.
Lemma sim_put_hop c p : sim (tf (put_hop c p)) (tf (put_hop c p)) (fun _ _ => True).
Proof. assert (R0 : True /\ True) by auto. revert R0. puts_rel. Qed.
Lemma sim_put_wasm c p : sim (tf (put_wasm c p)) (tf (put_wasm c p)) (fun _ _ => True).
Proof. assert (R0 : True /\ True) by auto. revert R0. puts_rel. Qed.
Lemma sim_deploy c k : F c YInst -> sim (tf (deploy c k)) (tf (deploy c k)) (fun _ _ => True).
Proof.
  intros H. apply sim_tf. intros w1 w2 r1 w1' W X. pose proof (rw_same _ _ W _ _ H) as Z. simpl in Z. destruct Z as (Z & _).
  unfold deploy, mget, mbind, mguard, mmod, fmem in *. rewrite Z in X.
  destruct ((0 <=? c) && negb (match fget c (w_code w2) with Some _ => true | None => false end)); [|discriminate]. inversion X; subst; clear X.
  eexists tt, _; split; [reflexivity|]; split; [exact I|].
  constructor; [exact (rw_now _ _ W) | exact (rw_seq _ _ W) |].
  intros c' y' Fy. pose proof (rw_same _ _ W _ _ Fy) as Z'. destruct y'; cbn in Z' |- *; try exact Z'.
  rewrite !fget_set. destruct (c' =? c); [decompose [and] Z'; repeat split; auto | exact Z'].
Qed.
End Sim.
