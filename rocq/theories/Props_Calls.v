(** The calls that only change settings (C146) and the initialisations (C147): exactly when they
    succeed, and exactly what they change. *)
From Coq Require Import ZArith List Bool Lia.
From Coq Require Import ZifyBool.
From Verif Require Import Base FMap Decimal DecimalProofs Curve World Token TokenProofs Frame Stake Pool PoolProofs
  Stable StableProofs Rewards Vest Factory Router System SysFrame SysInv SysPool SysStable SysSupply SysVest SysStake SysRewards
  Script Runs Props_Token Props_Pool Props_Stable Props_Vest Props_Stake Props_Rewards SysFact Props_Factory Props_Router
  Props_Live Props_LiveTok Props_LiveVest Props_LiveFact.
Import ListNotations.
Open Scope Z_scope.

(** an argument that may be left out: a rate in basis points, and the value in force afterwards *)
Definition rate_ok (o : option Z) : Prop := forall x, o = Some x -> 0 <= x <= 10000.
Definition given (o : option Z) (d : Z) : Z := match o with Some x => x | None => d end.

Lemma rate_iff o : vbps_o o = true <-> rate_ok o.
Proof.
  unfold rate_ok, vbps_o, vbps. destruct o as [x|]; [|split; [discriminate|auto]].
  split; [intros L y E; inversion E; subst; lia|]. intros L. specialize (L _ eq_refl). lia.
Qed.
Lemma guard_bind {A} b er (k : unit -> ST World A) w : mbind (mguard b er) k w = if b then k tt w else Err er.
Proof. unfold mbind, mguard. destruct b; reflexivity. Qed.
Lemma auth_bind {A} e a (k : unit -> ST World A) w : mbind (require_auth e None a) k w = if signs e a then k tt w else Err EAuth.
Proof. unfold require_auth. rewrite authed_none. apply guard_bind. Qed.
Lemma mmod_iff (f : World -> World) w w' : mmod f w = Ok (tt, w') <-> w' = f w.
Proof. unfold mmod. split; [intros X; inversion X; auto|intros ->; reflexivity]. Qed.
Lemma drop_bind {A} (m : ST World A) w u w' : drop m w = Ok (u, w') <-> exists x, m w = Ok (x, w').
Proof.
  unfold drop, mbind, mret. destruct (m w) as [[x w1]|er]; [|split; [discriminate|intros [x X]; discriminate]].
  destruct u. split; [intros X; inversion X; eauto|intros [y X]; inversion X; reflexivity].
Qed.

(** ** C146: settings *)
Section Settings.
  Variables (H : Addr -> Salt -> Addr) (w : World) (e : Env).
  Hypothesis R : reachable H w.

  Theorem C146_pool_config self p admin fee feerec maxslip maxspread maxref w' : pool_at w self p ->
    exec e (CPoolConfig self admin fee feerec maxslip maxspread maxref) w = Ok (tt, w') <->
    signs e (p_admin p) = true /\ rate_ok fee /\ rate_ok maxslip /\ rate_ok maxspread /\ rate_ok maxref /\
    w' = set_pool w (fset self (mkPool (p_ta p) (p_tb p) (p_share p) (p_stake p) (given fee (p_fee p)) (given feerec (p_feerec p))
           (given maxslip (p_maxslip p)) (given maxspread (p_maxspread p)) (given maxref (p_maxref p)) (p_defslip p)
           (given admin (p_admin p)) (p_total p) (p_ra p) (p_rb p)) (w_pool w)).
  Proof.
    intros E. unfold pool_at in E. pose proof (gd_cpool _ (reach_good _ _ R) _ _ E) as Hc.
    rewrite <- !rate_iff. cbn [exec]. unfold pool_update_config.
    rewrite (run_bind _ _ _ tt w) by (apply run_enter; auto). rewrite (run_bind _ _ _ p w) by (apply run_get_pool; auto).
    rewrite auth_bind. destruct (signs e (p_admin p)); [|split; [discriminate|intros [X _]; discriminate]].
    rewrite guard_bind. unfold put_pool.
    destruct (vbps_o fee), (vbps_o maxslip), (vbps_o maxspread), (vbps_o maxref); cbn [andb];
      try (split; [discriminate|intros X; decompose [and] X; discriminate]).
    rewrite mmod_iff. unfold opt_or, given. tauto.
  Qed.

  Theorem C146_pool_code self p hash w' : pool_at w self p ->
    exec e (CPoolUpdate self hash) w = Ok (tt, w') <->
    signs e (p_admin p) = true /\ w' = set_wasm w (fset self hash (w_wasm w)).
  Proof.
    intros E. unfold pool_at in E. pose proof (gd_cpool _ (reach_good _ _ R) _ _ E) as Hc.
    cbn [exec]. unfold pool_update.
    rewrite (run_bind _ _ _ tt w) by (apply run_enter; auto). rewrite (run_bind _ _ _ p w) by (apply run_get_pool; auto).
    rewrite auth_bind. destruct (signs e (p_admin p)); [|split; [discriminate|intros [X _]; discriminate]].
    unfold put_wasm. rewrite mmod_iff. tauto.
  Qed.

  Theorem C146_pool_upgrade self p hash slip w' : pool_at w self p ->
    exec e (CPoolUpgrade self hash slip) w = Ok (tt, w') <->
    signs e (p_admin p) = true /\
    w' = set_pool (set_wasm w (fset self hash (w_wasm w)))
           (fset self (mkPool (p_ta p) (p_tb p) (p_share p) (p_stake p) (p_fee p) (p_feerec p) (p_maxslip p) (p_maxspread p)
              (p_maxref p) slip (p_admin p) (p_total p) (p_ra p) (p_rb p)) (w_pool w)).
  Proof.
    intros E. unfold pool_at in E. pose proof (gd_cpool _ (reach_good _ _ R) _ _ E) as Hc.
    cbn [exec]. unfold pool_upgrade.
    rewrite (run_bind _ _ _ tt w) by (apply run_enter; auto). rewrite (run_bind _ _ _ p w) by (apply run_get_pool; auto).
    rewrite auth_bind. destruct (signs e (p_admin p)); [|split; [discriminate|intros [X _]; discriminate]].
    unfold put_wasm. rewrite (run_bind _ _ _ tt _) by reflexivity. unfold put_pool. rewrite mmod_iff. simpl. tauto.
  Qed.

  Theorem C146_stable_config self p u admin fee feerec maxslip maxspread w' : stable_at w self p ->
    exec e (CStableConfig self u admin fee feerec maxslip maxspread) w = Ok (tt, w') <->
    u = l_admin p /\ rate_ok fee /\ rate_ok maxslip /\ rate_ok maxspread /\
    w' = set_stable w (fset self (mkStable (l_ta p) (l_tb p) (l_share p) (l_stake p) (given fee (l_fee p)) (given feerec (l_feerec p))
           (given maxslip (l_maxslip p)) (l_defslip p) (given maxspread (l_maxspread p)) (given admin (l_admin p))
           (l_iamp p) (l_iampt p) (l_namp p) (l_nampt p) (l_prec p) (l_preca p) (l_precb p) (l_total p) (l_ra p) (l_rb p)) (w_stable w)).
  Proof.
    intros E. unfold stable_at in E. pose proof (gd_cstable _ (reach_good _ _ R) _ _ E) as Hc.
    rewrite <- !rate_iff. cbn [exec]. unfold stable_update_config.
    rewrite (run_bind _ _ _ tt w) by (apply run_enter; auto). rewrite (run_bind _ _ _ p w) by (apply run_get_stable; auto).
    rewrite guard_bind. destruct (Z.eqb_spec u (l_admin p)); [|split; [discriminate|tauto]].
    rewrite guard_bind. unfold put_stable.
    destruct (vbps_o fee), (vbps_o maxslip), (vbps_o maxspread); cbn [andb];
      try (split; [discriminate|intros X; decompose [and] X; discriminate]).
    rewrite mmod_iff. unfold opt_or, given. tauto.
  Qed.

  Theorem C146_stable_code self p hash w' : stable_at w self p ->
    exec e (CStableUpgrade self hash) w = Ok (tt, w') <->
    signs e (l_admin p) = true /\ w' = set_wasm w (fset self hash (w_wasm w)).
  Proof.
    intros E. unfold stable_at in E. pose proof (gd_cstable _ (reach_good _ _ R) _ _ E) as Hc.
    cbn [exec]. unfold stable_upgrade.
    rewrite (run_bind _ _ _ tt w) by (apply run_enter; auto). rewrite (run_bind _ _ _ p w) by (apply run_get_stable; auto).
    rewrite auth_bind. destruct (signs e (l_admin p)); [|split; [discriminate|intros [X _]; discriminate]].
    unfold put_wasm. rewrite mmod_iff. tauto.
  Qed.

  Theorem C146_stake_flow self s u asset w' : stake_at w self s ->
    exec e (CFlow self u asset) w = Ok (tt, w') <->
    signs e u = true /\ (u = s_manager s \/ u = s_owner s) /\ ~ In asset (s_dists s) /\
    w' = set_stake w (fset self (mkStake (s_lp s) (s_minbond s) (s_minreward s) (s_manager s) (s_owner s) (s_maxc s) (s_admin s)
           (s_total s) (s_users s) (s_tsh s) (s_dists s ++ [asset]) (fset asset [] (s_rh s))) (w_stake w)).
  Proof.
    intros E. unfold stake_at in E. pose proof (gd_cstake _ (reach_good _ _ R) _ _ E) as Hc.
    cbn [exec]. unfold stake_create_flow.
    rewrite (run_bind _ _ _ tt w) by (apply run_enter; auto). rewrite auth_bind.
    destruct (signs e u); [|split; [discriminate|intros [X _]; discriminate]].
    rewrite (run_bind _ _ _ s w) by (apply run_get_stake; auto).
    rewrite !guard_bind. destruct (Z.eqb_spec u (s_manager s)), (Z.eqb_spec u (s_owner s)); cbn [orb];
      try (split; [discriminate|tauto]).
    all: rewrite <- zmem_iff; destruct (zmem asset (s_dists s)); cbn [negb];
      [split; [discriminate|tauto]|]; unfold put_stake; rewrite mmod_iff; unfold set_s_dists, fempty;
      split; [intros ->; repeat split; auto; discriminate|tauto].
  Qed.

  Theorem C146_stake_code self s hash w' : stake_at w self s ->
    exec e (CStakeUpdate self hash) w = Ok (tt, w') <->
    signs e (s_admin s) = true /\ w' = set_wasm w (fset self hash (w_wasm w)).
  Proof.
    intros E. unfold stake_at in E. pose proof (gd_cstake _ (reach_good _ _ R) _ _ E) as Hc.
    cbn [exec]. unfold stake_update.
    rewrite (run_bind _ _ _ tt w) by (apply run_enter; auto). rewrite (run_bind _ _ _ s w) by (apply run_get_stake; auto).
    rewrite auth_bind. destruct (signs e (s_admin s)); [|split; [discriminate|intros [X _]; discriminate]].
    unfold put_wasm. rewrite mmod_iff. tauto.
  Qed.

  Theorem C146_rewards_code self r hash w' : rewards_at w self r ->
    exec e (CRewUpdate self hash) w = Ok (tt, w') <->
    signs e (r_admin r) = true /\ w' = set_wasm w (fset self hash (w_wasm w)).
  Proof.
    intros E. unfold rewards_at in E. pose proof (gd_crewards _ (reach_good _ _ R) _ _ E) as Hc.
    cbn [exec]. unfold rewards_update.
    rewrite (run_bind _ _ _ tt w) by (apply run_enter; auto).
    rewrite (run_bind _ _ _ r w) by (unfold get_rewards; rewrite E; reflexivity).
    rewrite auth_bind. destruct (signs e (r_admin r)); [|split; [discriminate|intros [X _]; discriminate]].
    unfold put_wasm. rewrite mmod_iff. tauto.
  Qed.

  (** a vesting contract without a minter takes a first one from its admin, with capacity 0 *)
  Theorem C146_vest_minter self v u new w' : vest_at w self v ->
    exec e (CVestMinter self u new) w = Ok (tt, w') <->
    signs e u = true /\ exists cap,
      (v_minter v = Some (u, cap) \/ (v_minter v = None /\ u = v_admin v /\ cap = 0)) /\
      w' = set_vest w (fset self (mkVest (v_admin v) (v_token v) (v_maxc v) (Some (new, cap)) (v_ent v)) (w_vest w)).
  Proof.
    intros E. unfold vest_at in E. pose proof (gd_cvest _ (reach_good _ _ R) _ _ E) as Hc.
    cbn [exec]. unfold vest_update_minter.
    rewrite (run_bind _ _ _ tt w) by (apply run_enter; auto). rewrite auth_bind.
    destruct (signs e u); [|split; [discriminate|intros [X _]; discriminate]].
    rewrite (run_bind _ _ _ v w) by (apply run_get_vest; auto). rewrite guard_bind. unfold put_vest, set_v_minter.
    destruct (v_minter v) as [[m cap]|]; simpl.
    - destruct (Z.eqb_spec u m) as [->|N].
      + rewrite mmod_iff. split; [intros ->; eauto 10|]. intros [_ [c [[X|[X _]] Y]]]; [inversion X; subst; auto|discriminate].
      + split; [discriminate|]. intros [_ [c [[X|[X _]] _]]]; [inversion X; congruence|discriminate].
    - destruct (Z.eqb_spec u (v_admin v)) as [->|N].
      + rewrite mmod_iff. split; [intros ->; split; auto; exists 0; auto 10|].
        intros [_ [c [[X|[_ [_ ->]]] Y]]]; [discriminate|auto].
      + split; [discriminate|]. intros [_ [c [[X|[_ [X _]]] _]]]; [discriminate|congruence].
  Qed.

  Theorem C146_vest_capacity self v u cap w' : vest_at w self v ->
    exec e (CVestCapacity self u cap) w = Ok (tt, w') <->
    signs e u = true /\ u = v_admin v /\ exists m old, v_minter v = Some (m, old) /\
      w' = set_vest w (fset self (mkVest (v_admin v) (v_token v) (v_maxc v) (Some (m, cap)) (v_ent v)) (w_vest w)).
  Proof.
    intros E. unfold vest_at in E. pose proof (gd_cvest _ (reach_good _ _ R) _ _ E) as Hc.
    cbn [exec]. unfold vest_update_capacity.
    rewrite (run_bind _ _ _ tt w) by (apply run_enter; auto). rewrite auth_bind.
    destruct (signs e u); [|split; [discriminate|intros [X _]; discriminate]].
    rewrite (run_bind _ _ _ v w) by (apply run_get_vest; auto). rewrite guard_bind.
    destruct (Z.eqb_spec u (v_admin v)); [|split; [discriminate|tauto]].
    destruct (v_minter v) as [[m old]|]; simpl.
    - rewrite (run_bind _ _ _ (m, old) w) by reflexivity. unfold put_vest, set_v_minter. rewrite mmod_iff. simpl.
      split; [intros ->; eauto 10|]. intros [_ [_ [a [b [X Y]]]]]. inversion X; subst; auto.
    - split; [discriminate|]. intros [_ [_ [a [b [X _]]]]]. discriminate.
  Qed.

  Theorem C146_vest_code self v hash w' : vest_at w self v ->
    exec e (CVestUpdate self hash) w = Ok (tt, w') <->
    signs e (v_admin v) = true /\ w' = set_wasm w (fset self hash (w_wasm w)).
  Proof.
    intros E. unfold vest_at in E. pose proof (gd_cvest _ (reach_good _ _ R) _ _ E) as Hc.
    cbn [exec]. unfold vest_update.
    rewrite (run_bind _ _ _ tt w) by (apply run_enter; auto). rewrite (run_bind _ _ _ v w) by (apply run_get_vest; auto).
    rewrite auth_bind. destruct (signs e (v_admin v)); [|split; [discriminate|intros [X _]; discriminate]].
    unfold put_wasm. rewrite mmod_iff. tauto.
  Qed.

  (** the new whitelist: what C65 says about it *)
  Theorem C146_whitelist self f u add rm w' : fact_at w self f ->
    exec e (CWhitelist self u add rm) w = Ok (tt, w') <->
    signs e u = true /\ u = f_admin f /\
    w' = set_fact w (fset self (mkFact (f_admin f) (f_hop f) (f_lphash f) (f_stakehash f) (f_tokhash f) (f_stabhash f)
           (wl_remove (wl_add (f_white f) add) rm) (f_lpdec f) (f_lps f) (f_pairs f)) (w_fact w)).
  Proof.
    intros E. unfold fact_at in E. pose proof (gd_cfact _ (reach_good _ _ R) _ _ E) as Hc.
    cbn [exec]. unfold fact_update_whitelist.
    rewrite (run_bind _ _ _ tt w) by (apply run_enter; auto). rewrite auth_bind.
    destruct (signs e u); [|split; [discriminate|intros [X _]; discriminate]].
    rewrite (run_bind _ _ _ f w) by (unfold get_fact; rewrite E; reflexivity). rewrite guard_bind.
    destruct (Z.eqb_spec (f_admin f) u) as [<-|N]; [|split; [discriminate|intros [_ [X _]]; congruence]].
    unfold put_fact, set_f_white. rewrite mmod_iff. tauto.
  Qed.

  Theorem C146_hashes self f lph stakeh tokh w' : fact_at w self f ->
    exec e (CHashes self lph stakeh tokh) w = Ok (tt, w') <->
    signs e (f_admin f) = true /\
    w' = set_fact w (fset self (mkFact (f_admin f) (f_hop f) (given lph (f_lphash f)) (given stakeh (f_stakehash f))
           (given tokh (f_tokhash f)) (f_stabhash f) (f_white f) (f_lpdec f) (f_lps f) (f_pairs f)) (w_fact w)).
  Proof.
    intros E. unfold fact_at in E. pose proof (gd_cfact _ (reach_good _ _ R) _ _ E) as Hc.
    cbn [exec]. unfold fact_update_hashes.
    rewrite (run_bind _ _ _ tt w) by (apply run_enter; auto).
    rewrite (run_bind _ _ _ f w) by (unfold get_fact; rewrite E; reflexivity).
    rewrite auth_bind. destruct (signs e (f_admin f)); [|split; [discriminate|intros [X _]; discriminate]].
    unfold put_fact, set_f_hashes, opt_or, given. rewrite mmod_iff. tauto.
  Qed.

  (** replacing the factory's code also replaces the hash of stable pools *)
  Theorem C146_factory_code self f hash stabh w' : fact_at w self f ->
    exec e (CFactUpdate self hash stabh) w = Ok (tt, w') <->
    signs e (f_admin f) = true /\
    w' = set_fact (set_wasm w (fset self hash (w_wasm w)))
           (fset self (mkFact (f_admin f) (f_hop f) (f_lphash f) (f_stakehash f) (f_tokhash f) stabh
             (f_white f) (f_lpdec f) (f_lps f) (f_pairs f)) (w_fact w)).
  Proof.
    intros E. unfold fact_at in E. pose proof (gd_cfact _ (reach_good _ _ R) _ _ E) as Hc.
    cbn [exec]. unfold fact_update.
    rewrite (run_bind _ _ _ tt w) by (apply run_enter; auto).
    rewrite (run_bind _ _ _ f w) by (unfold get_fact; rewrite E; reflexivity).
    rewrite auth_bind. destruct (signs e (f_admin f)); [|split; [discriminate|intros [X _]; discriminate]].
    unfold put_wasm. rewrite (run_bind _ _ _ tt _) by reflexivity. unfold put_fact, set_f_hashes. rewrite mmod_iff. simpl. tauto.
  Qed.

  Theorem C146_router_code self h hash w' : fget self (w_hop w) = Some h ->
    exec e (CHopUpdate self hash) w = Ok (tt, w') <->
    signs e (h_admin h) = true /\ w' = set_wasm w (fset self hash (w_wasm w)).
  Proof.
    intros E. pose proof (gd_chop _ (reach_good _ _ R) _ _ E) as Hc.
    cbn [exec]. unfold hop_update.
    rewrite (run_bind _ _ _ tt w) by (apply run_enter; auto).
    rewrite (run_bind _ _ _ h w) by (unfold get_hop; rewrite E; reflexivity).
    rewrite auth_bind. destruct (signs e (h_admin h)); [|split; [discriminate|intros [X _]; discriminate]].
    unfold put_wasm. rewrite mmod_iff. tauto.
  Qed.

  Theorem C146_token_admin t k new w' : fget t (w_tok w) = Some k ->
    exec e (CSetAdmin t new) w = Ok (tt, w') <->
    signs e (t_admin k) = true /\
    w' = set_tok w (fset t (mkToken new (t_dec k) (t_bal k) (t_allow k) (t_minted k) (t_burned k)) (w_tok w)).
  Proof.
    intros E. cbn [exec]. unfold tok_set_admin.
    rewrite (run_bind _ _ _ k w) by (apply run_get_tok; auto).
    rewrite auth_bind. destruct (signs e (t_admin k)); [|split; [discriminate|intros [X _]; discriminate]].
    unfold upd_tok. rewrite (run_bind _ _ _ k w) by (apply run_get_tok; auto).
    rewrite (run_bind _ _ _ (tk_set_admin new k) w) by reflexivity. unfold put_tok. rewrite mmod_iff. unfold tk_set_admin. tauto.
  Qed.
End Settings.

Print Assumptions C146_pool_config.
Print Assumptions C146_pool_code.
Print Assumptions C146_pool_upgrade.
Print Assumptions C146_stable_config.
Print Assumptions C146_stable_code.
Print Assumptions C146_stake_flow.
Print Assumptions C146_stake_code.
Print Assumptions C146_rewards_code.
Print Assumptions C146_vest_minter.
Print Assumptions C146_vest_capacity.
Print Assumptions C146_vest_code.
Print Assumptions C146_whitelist.
Print Assumptions C146_hashes.
Print Assumptions C146_factory_code.
Print Assumptions C146_router_code.
Print Assumptions C146_token_admin.

(** ** C147: initialisations.  [fresh K m self w]: code of kind [K] is deployed at [self] and has
    no storage in [m] yet. *)
Definition fresh {V} (k : kind) (m : World -> fmap V) (self : Addr) (w : World) : Prop :=
  fget self (w_code w) = Some k /\ fget self (m w) = None.

(** what a new pool adds to the ledger: its share token and its staking contract *)
Definition pool_children (e : Env) (self : Addr) (i : PoolInit) (owner dec : Z) (w : World) : World :=
  let sh := e_hash e self (SPair (i_ta i) (i_tb i)) in
  let st := e_hash e self SEmpty in
  set_stake (set_tok (set_code w (fset st KStake (fset sh KTok (w_code w))))
               (fset sh (mkToken self dec [] [] 0 0) (w_tok w)))
    (fset st (mkStake sh (i_minbond i) (i_minreward i) (i_manager i) owner (i_maxc i) (i_admin i) 0 [] [] [] []) (w_stake w)).

(** the addresses and the staking parameters a pool can start with *)
Definition startable (e : Env) (self : Addr) (i : PoolInit) (dec : Z) (w : World) : Prop :=
  let sh := e_hash e self (SPair (i_ta i) (i_tb i)) in
  let st := e_hash e self SEmpty in
  i_ta i < i_tb i /\ vacant w sh /\ vacant w st /\ sh <> st /\ sh <> i_ta i /\ sh <> i_tb i /\
  0 <= dec <= 18 /\ 0 < i_minbond i /\ 0 < i_minreward i /\ i_maxc i <> 0.

Lemma new_startable e self i owner dec w : Good w ->
  (NewPool (e_hash e) self i owner dec w /\ i_maxc i <> 0) <-> startable e self i dec w.
Proof.
  intros G. unfold startable, vacant. split.
  - intros [[N1 N2 N3 [N4 N5] N6 N7 N8 N9 N10 N11 N12] Mc]. repeat split; auto; lia.
  - intros [A1 [[A2 A3] [[A4 A5] [A6 [A7 [A8 [A9 [A10 [A11 A12]]]]]]]]]. split; [|auto]. constructor; auto.
    destruct (fget (e_hash e self SEmpty) (w_stake w)) eqn:F; auto. apply (gd_cstake _ G) in F. congruence.
Qed.
Lemma children_world e self i owner dec w : with_children (e_hash e) self i owner dec w = pool_children e self i owner dec w.
Proof. reflexivity. Qed.

Section Initialise.
  Variables (H : Addr -> Salt -> Addr) (w : World) (e : Env).
  Hypothesis R : reachable H w.

  Theorem C147_pool_init self i owner dec slip maxfee w' :
    exec e (CPoolInit self i owner dec slip maxfee) w = Ok (tt, w') <->
    fresh KPool w_pool self w /\ 0 <= i_fee i <= maxfee /\ is_bps maxfee /\ is_bps (i_maxslip i) /\ is_bps (i_maxspread i) /\
    is_bps (i_maxref i) /\ is_bps slip /\ startable e self i dec w /\
    w' = set_pool (pool_children e self i owner dec w)
           (fset self (mkPool (i_ta i) (i_tb i) (e_hash e self (SPair (i_ta i) (i_tb i))) (e_hash e self SEmpty) (i_fee i) (i_feerec i)
              (i_maxslip i) (i_maxspread i) (i_maxref i) slip (i_admin i) 0 0 0) (w_pool w)).
  Proof.
    pose proof (reach_good _ _ R) as G. cbn [exec]. unfold is_bps, fresh. split.
    - intros X. pose proof (initialize_maxc _ _ _ _ _ _ _ _ _ _ X) as Mc. apply pool_initialize_ok in X.
      destruct X as [Hc [Hn [B [F [NP ->]]]]]. unfold vbps in B.
      assert (St : startable e self i dec w) by (apply (new_startable e self i owner dec w G); auto).
      rewrite children_world. repeat (split; [first [lia | assumption | (split; assumption)]|]). reflexivity.
    - intros [[Hc Hn] [B1 [B2 [B3 [B4 [B5 [B6 [St ->]]]]]]]].
      apply (new_startable e self i owner dec w G) in St. destruct St as [NP Mc].
      destruct (children_run _ _ _ _ _ _ NP Mc) as [w2 [X1 X2]]. pose proof (np_ord _ _ _ _ _ _ NP).
      unfold pool_initialize. rewrite (run_bind _ _ _ tt w) by (apply run_enter; auto).
      rewrite (run_bind _ _ _ w w) by reflexivity.
      rewrite (run_bind _ _ _ tt w) by (apply run_guard, fmem_none; auto).
      rewrite (run_bind _ _ _ tt w) by (apply run_guard; unfold vbps; lia).
      rewrite (run_bind _ _ _ tt w) by (apply run_guard; lia).
      rewrite (run_bind _ _ _ tt w) by (apply run_guard; lia).
      rewrite (run_bind _ _ _ _ _ X1). rewrite (run_bind _ _ _ _ _ X2). reflexivity.
  Qed.

  Theorem C147_stable_init self i owner amp maxfee w' :
    exec e (CStableInit self i owner amp maxfee) w = Ok (tt, w') <->
    fresh KStable w_stable self w /\ 0 <= i_fee i <= maxfee /\ is_bps maxfee /\ is_bps (i_maxslip i) /\ is_bps (i_maxspread i) /\
    is_bps (i_defslip i) /\ 1 <= amp <= 1000000 /\
    exists da db, tdec w (i_ta i) = Some da /\ tdec w (i_tb i) = Some db /\ startable e self i (Z.max da db) w /\
    w' = set_stable (pool_children e self i owner (Z.max da db) w)
           (fset self (mkStable (i_ta i) (i_tb i) (e_hash e self (SPair (i_ta i) (i_tb i))) (e_hash e self SEmpty) (i_fee i) (i_feerec i)
              (i_maxslip i) (i_defslip i) (i_maxspread i) (i_admin i) (amp * 100) (w_now w) (amp * 100) (w_now w)
              (Z.max da db) da db 0 0 0) (w_stable w)).
  Proof.
    pose proof (reach_good _ _ R) as G. cbn [exec]. unfold is_bps, fresh.
    assert (Mx : forall a b, (if b <? a then a else b) = Z.max a b) by (intros a b; destruct (Z.ltb_spec b a); lia).
    split.
    - intros X. pose proof (sinitialize_maxc _ _ _ _ _ _ _ _ _ X) as Mc. apply stable_initialize_ok in X.
      destruct X as [Hc [Hn [B [F [A1 [A2 [A3 [da [db [D1 [D2 [NP ->]]]]]]]]]]]]. unfold vbps in B. unfold MAX_AMP in A2.
      rewrite !Mx in *.
      assert (St : startable e self i (Z.max da db) w) by (apply (new_startable e self i owner _ w G); auto).
      rewrite children_world. repeat (split; [first [lia | assumption | (split; assumption)]|]).
      exists da, db. repeat (split; [first [lia | assumption]|]). reflexivity.
    - intros [[Hc Hn] [B1 [B2 [B3 [B4 [B5 [B6 [da [db [D1 [D2 [St ->]]]]]]]]]]]].
      apply (new_startable e self i owner _ w G) in St. destruct St as [NP Mc].
      destruct (children_run _ _ _ _ _ _ NP Mc) as [w2 [X1 X2]]. pose proof (np_ord _ _ _ _ _ _ NP).
      assert (K : forall t d, tdec w t = Some d -> tok_decimals t w = Ok (d, w)).
      { intros t d X. unfold tdec in X. destruct (fget t (w_tok w)) as [k|] eqn:Ek; [|discriminate]. inversion X; subst.
        unfold tok_decimals. rewrite (run_bind _ _ _ k w) by (apply run_get_tok; exact Ek). reflexivity. }
      unfold stable_initialize. rewrite (run_bind _ _ _ tt w) by (apply run_enter; auto).
      rewrite (run_bind _ _ _ w w) by reflexivity.
      rewrite (run_bind _ _ _ tt w) by (apply run_guard, fmem_none; auto).
      rewrite (run_bind _ _ _ tt w) by (apply run_guard; unfold vbps; lia).
      rewrite (run_bind _ _ _ tt w) by (apply run_guard; lia).
      rewrite (run_bind _ _ _ tt w) by (apply run_guard; lia).
      rewrite (run_bind _ _ _ _ _ (K _ _ D1)), (run_bind _ _ _ _ _ (K _ _ D2)). cbv zeta. rewrite !Mx.
      rewrite (run_bind _ _ _ _ _ X1). rewrite (run_bind _ _ _ _ _ X2). erewrite run_bind by apply run_now.
      erewrite run_bind by (apply run_guard; unfold MAX_AMP; lia).
      erewrite run_bind by (apply run_lift; apply chk_ok; unfold in_u64, U64_MAX, AMP_PRECISION; lia). reflexivity.
  Qed.

  Theorem C147_stake_init self admin lp minbond minreward manager owner maxc w' :
    exec e (CStakeInit self admin lp minbond minreward manager owner maxc) w = Ok (tt, w') <->
    fresh KStake w_stake self w /\ 0 < minbond /\ 0 < minreward /\ maxc <> 0 /\
    w' = set_stake w (fset self (mkStake lp minbond minreward manager owner maxc admin 0 [] [] [] []) (w_stake w)).
  Proof.
    cbn [exec]. unfold fresh, stake_initialize. split.
    - intros X. rstep X. winv. match goal with K : negb (fmem _ _) = true |- _ => apply fmem_false in K end.
      repeat (split; [first [lia | (split; assumption)]|]). reflexivity.
    - intros [[Hc Hn] [B1 [B2 [B3 ->]]]].
      rewrite (run_bind _ _ _ tt w) by (apply run_enter; auto). rewrite (run_bind _ _ _ w w) by reflexivity.
      rewrite (run_bind _ _ _ tt w) by (apply run_guard, fmem_none; auto).
      rewrite (run_bind _ _ _ tt w) by (apply run_guard; lia). rewrite (run_bind _ _ _ tt w) by (apply run_guard; lia).
      rewrite (run_bind _ _ _ tt w) by (apply run_guard; lia). reflexivity.
  Qed.

  Theorem C147_rewards_init self admin staking token maxc minreward minbond w' :
    exec e (CRewInit self admin staking token maxc minreward minbond) w = Ok (tt, w') <->
    fresh KRewards w_rewards self w /\
    w' = set_rewards w (fset self (mkRewards staking token maxc minreward minbond admin 1 0 0 0 (Constant 0) []) (w_rewards w)).
  Proof.
    cbn [exec]. unfold fresh, rewards_initialize. split.
    - intros X. rstep X. winv. match goal with K : negb (fmem _ _) = true |- _ => apply fmem_false in K end.
      repeat (split; [first [lia | (split; assumption)]|]). reflexivity.
    - intros [[Hc Hn] ->].
      rewrite (run_bind _ _ _ tt w) by (apply run_enter; auto). rewrite (run_bind _ _ _ w w) by reflexivity.
      rewrite (run_bind _ _ _ tt w) by (apply run_guard, fmem_none; auto). reflexivity.
  Qed.

  Theorem C147_vest_init self admin token maxc minter w' :
    exec e (CVestInit self admin token maxc minter) w = Ok (tt, w') <->
    fresh KVest w_vest self w /\
    w' = set_vest w (fset self (mkVest admin token maxc minter []) (w_vest w)).
  Proof.
    cbn [exec]. unfold fresh, vest_initialize. split.
    - intros X. rstep X. winv. match goal with K : negb (fmem _ _) = true |- _ => apply fmem_false in K end.
      repeat (split; [first [lia | (split; assumption)]|]). reflexivity.
    - intros [[Hc Hn] ->].
      rewrite (run_bind _ _ _ tt w) by (apply run_enter; auto). rewrite (run_bind _ _ _ w w) by reflexivity.
      rewrite (run_bind _ _ _ tt w) by (apply run_guard, fmem_none; auto). reflexivity.
  Qed.

  (** the factory deploys its own router, administered by the same admin *)
  Theorem C147_factory_init self admin lph stabh stakeh tokh white dec w' :
    exec e (CFactInit self admin lph stabh stakeh tokh white dec) w = Ok (tt, w') <->
    fresh KFact w_fact self w /\ white <> [] /\ vacant w (e_hash e self (SOne admin)) /\
    w' = let h := e_hash e self (SOne admin) in
         set_fact (set_hop (set_code w (fset h KHop (w_code w))) (fset h (mkHop admin self) (w_hop w)))
           (fset self (mkFact admin h lph stakeh tokh stabh white dec [] []) (w_fact w)).
  Proof.
    pose proof (reach_good _ _ R) as G. cbn [exec]. unfold fresh, vacant. split.
    - intros X. apply fact_initialize_ok in X. cbv zeta in X. destruct X as [A1 [A2 [A3 [A4 [A5 ->]]]]]. auto 10.
    - intros [[Hc Hn] [Nw [[V1 V2] ->]]]. unfold fact_initialize.
      rewrite (run_bind _ _ _ tt w) by (apply run_enter; auto). rewrite (run_bind _ _ _ w w) by reflexivity.
      rewrite (run_bind _ _ _ tt w) by (apply run_guard, fmem_none; auto).
      rewrite (run_bind _ _ _ tt w) by (apply run_guard; destruct white; [congruence|reflexivity]).
      cbv zeta. rewrite (run_bind _ _ _ tt _ (deploy_runs _ KHop w V1 V2)).
      set (h := e_hash e self (SOne admin)) in *.
      rewrite (run_bind _ _ _ tt (set_hop (set_code w (fset h KHop (w_code w))) (fset h (mkHop admin self) (w_hop w)))); [reflexivity|].
      unfold hop_initialize.
      rewrite (run_bind _ _ _ tt (set_code w (fset h KHop (w_code w)))) by (apply run_enter; simpl; apply fget_set_same).
      erewrite (run_bind _ _ _ _ (set_code w (fset h KHop (w_code w)))) by reflexivity.
      rewrite (run_bind _ _ _ tt (set_code w (fset h KHop (w_code w)))); [reflexivity|]. apply run_guard, fmem_none. simpl.
      destruct (fget h (w_hop w)) eqn:F; auto. apply (gd_chop _ G) in F. congruence.
  Qed.

  Theorem C147_router_init self admin factory w' :
    exec e (CHopInit self admin factory) w = Ok (tt, w') <->
    fresh KHop w_hop self w /\ w' = set_hop w (fset self (mkHop admin factory) (w_hop w)).
  Proof.
    cbn [exec]. unfold fresh, hop_initialize. split.
    - intros X. rstep X. winv. match goal with K : negb (fmem _ _) = true |- _ => apply fmem_false in K end.
      repeat (split; [first [lia | (split; assumption)]|]). reflexivity.
    - intros [[Hc Hn] ->].
      rewrite (run_bind _ _ _ tt w) by (apply run_enter; auto). rewrite (run_bind _ _ _ w w) by reflexivity.
      rewrite (run_bind _ _ _ tt w) by (apply run_guard, fmem_none; auto). reflexivity.
  Qed.

  (** the only initialisation somebody has to sign *)
  Theorem C147_trader_init self admin ta tb out w' :
    exec e (CTraderInit self admin ta tb out) w = Ok (tt, w') <->
    fresh KTrader w_trader self w /\ signs e admin = true /\
    w' = set_trader w (fset self (mkTrader admin ta tb out) (w_trader w)).
  Proof.
    cbn [exec]. unfold fresh, trader_initialize. split.
    - intros X. rstep X. winv. match goal with K : negb (fmem _ _) = true |- _ => apply fmem_false in K end.
      match goal with K : authed _ _ _ = true |- _ => rewrite authed_none in K end.
      repeat (split; [first [lia | assumption | (split; assumption)]|]). reflexivity.
    - intros [[Hc Hn] [Sg ->]].
      rewrite (run_bind _ _ _ tt w) by (apply run_enter; auto).
      rewrite (run_bind _ _ _ tt w) by (apply run_auth; rewrite authed_none; auto). rewrite (run_bind _ _ _ w w) by reflexivity.
      rewrite (run_bind _ _ _ tt w) by (apply run_guard, fmem_none; auto). reflexivity.
  Qed.

  (** deployments by accounts: any code at any free contract address; a token with its constructor *)
  Theorem C147_deployments w' :
    (forall a k, exec e (CDeploy a k) w = Ok (tt, w') <-> k <> KTok /\ vacant w a /\ w' = set_code w (fset a k (w_code w))) /\
    (forall t admin dec, exec e (CDeployTok t admin dec) w = Ok (tt, w') <->
       vacant w t /\ 0 <= dec <= 18 /\
       w' = set_tok (set_code w (fset t KTok (w_code w))) (fset t (mkToken admin dec [] [] 0 0) (w_tok w))).
  Proof.
    unfold vacant. split.
    - intros a k. cbn [exec]. destruct k; try (split; [discriminate|intros [X _]; congruence]);
        (split; [intros X; apply deploy_ok in X; destruct X as [A [B ->]]; split; [discriminate|auto]|];
         intros [_ [[A B] ->]]; apply deploy_runs; auto).
    - intros t admin dec. cbn [exec]. split.
      + intros X. apply tok_deploy_ok in X. destruct X as [A [B [C ->]]]. repeat split; auto; lia.
      + intros [[A B] [C ->]]. unfold tok_deploy. rewrite (run_bind _ _ _ tt _ (deploy_runs _ KTok w A B)).
        erewrite run_bind by (apply run_guard; lia). reflexivity.
  Qed.
End Initialise.
Print Assumptions C147_pool_init.
Print Assumptions C147_stable_init.
Print Assumptions C147_stake_init.
Print Assumptions C147_rewards_init.
Print Assumptions C147_vest_init.
Print Assumptions C147_factory_init.
Print Assumptions C147_router_init.
Print Assumptions C147_trader_init.
Print Assumptions C147_deployments.
