(** The factory: what every transaction does to its registry. *)
From Coq Require Import ZArith List Bool Lia.
From Coq Require Import ZifyBool.
From Verif Require Import Base FMap Decimal DecimalProofs Curve World Token TokenProofs Frame Stake Pool PoolProofs
  Stable StableProofs Rewards Vest Factory Router System SysFrame SysInv SysPool SysStable SysSupply SysVest SysStake Script
  Props_Token Props_Pool Props_Stable.
Import ListNotations.
Open Scope Z_scope.

(** The two tokens of an initialised pool of either type. *)
Definition pool_tokens (w : World) (p : Addr) : option (Addr * Addr) :=
  match fget p (w_pool w) with
  | Some x => Some (p_ta x, p_tb x)
  | None => match fget p (w_stable w) with Some x => Some (l_ta x, l_tb x) | None => None end
  end.

Lemma pool_tokens_code w p t : Good w -> pool_tokens w p = Some t -> fget p (w_code w) = Some KPool \/ fget p (w_code w) = Some KStable.
Proof.
  unfold pool_tokens. intros G. destruct (fget p (w_pool w)) eqn:E; [left; eapply gd_cpool; eauto|].
  destruct (fget p (w_stable w)) eqn:E2; [right; eapply gd_cstable; eauto|discriminate].
Qed.

Lemma pool_tokens_tx H w e k w' p t : reachable H w -> exec e k w = Ok (tt, w') -> pool_tokens w p = Some t -> pool_tokens w' p = Some t.
Proof.
  intros R X Ht. pose proof (reach_good _ _ R) as G. destruct (exec_framec _ _ _ _ X G) as [G' [X' _]].
  unfold pool_tokens in *. destruct (fget p (w_pool w)) as [x|] eqn:E.
  - destruct (pool_step _ _ _ _ X G (reach_pool _ _ R) _ _ E) as [x' [E' [[A B _ _] _]]]. rewrite E'. congruence.
  - destruct (fget p (w_stable w)) as [x|] eqn:E2; [|discriminate].
    destruct (C32_settings_need_admin_name _ _ _ _ _ _ _ R E2 X) as [x' [E' [[A [B _]] _]]]. unfold stable_at in E'.
    destruct (fget p (w_pool w')) as [y|] eqn:E3.
    + pose proof (gd_cpool _ G' _ _ E3). pose proof (gd_cstable _ G' _ _ E'). congruence.
    + rewrite E'. congruence.
Qed.

(** Induction over reachable ledgers that keeps reachability. *)
Lemma reach_ind2 H (P : World -> Prop) : P w_empty ->
  (forall w ev w', reachable H w -> step H w ev w' -> P w -> P w') -> forall w, reachable H w -> P w.
Proof.
  intros H0 Hs w [l R].
  assert (Q : forall w0 l0 w1, run H w0 l0 w1 -> reachable H w0 -> P w0 -> P w1).
  { intros w0 l0 w1 R0. induction R0; auto. intros Rw Pw. apply IHR0; [|eapply Hs; eauto].
    eapply reach_run; eauto. econstructor; [eauto|constructor]. }
  eapply Q; eauto. exists []. constructor.
Qed.
Lemma run_ind2 H (P : World -> Prop) :
  (forall w ev w', reachable H w -> step H w ev w' -> P w -> P w') -> forall w l w', reachable H w -> run H w l w' -> P w -> P w'.
Proof.
  intros Hs w l w' R R0. induction R0; auto. intros Pw. apply IHR0; [|eapply Hs; eauto].
  eapply reach_run; eauto. econstructor; [eauto|constructor].
Qed.

Lemma pool_tokens_run H w l w' p t : reachable H w -> run H w l w' -> pool_tokens w p = Some t -> pool_tokens w' p = Some t.
Proof.
  intros R Rn. apply (run_ind2 H (fun w => pool_tokens w p = Some t)) with (2 := R) (3 := Rn).
  clear. intros w ev w' R St Ht. inversion St as [e0 k0 w0 Eh X|]; subst; [eapply pool_tokens_tx; eauto|exact Ht].
Qed.

(** ** One transaction *)
Definition reg_new (f : Fact) (a b p : Addr) : Fact := set_f_reg f (f_lps f ++ [p]) (pair_set f a b p).

Lemma pair_get_new f a b p x y : pair_get (reg_new f a b p) x y = if (x =? a) && (y =? b) then Some p else pair_get f x y.
Proof.
  unfold pair_get, reg_new, set_f_reg, pair_set; simpl. unfold fgetd at 1. rewrite fget_set.
  destruct (Z.eqb_spec x a) as [->|N]; simpl.
  - rewrite fget_set. destruct (y =? b); auto.
  - reflexivity.
Qed.

Inductive FStep (e : Env) (k : Call) (w w' : World) (c : Addr) (f : Fact) : Fact -> Prop :=
| fs_create u i ty amp ds mf p : k = CCreate c u i ty amp ds mf -> signs e u = true -> In u (f_white f) ->
    i_ta i < i_tb i -> p = e_hash e c (SPair (i_ta i) (i_tb i)) -> fget p (w_code w) = None ->
    fget p (w_code w') = Some (kind_of ty) -> pool_tokens w' p = Some (i_ta i, i_tb i) ->
    FStep e k w w' c f (reg_new f (i_ta i) (i_tb i) p)
| fs_white u add rm : k = CWhitelist c u add rm -> u = f_admin f -> signs e u = true ->
    FStep e k w w' c f (set_f_white f (wl_remove (wl_add (f_white f) add) rm))
| fs_hash a b t s : (exists x y z, k = CHashes c x y z) \/ (exists h x, k = CFactUpdate c h x) -> signs e (f_admin f) = true ->
    FStep e k w w' c f (set_f_hashes f a b t s)
| fs_same : FStep e k w w' c f f.

Lemma zmem_in' a l : zmem a l = true -> In a l.
Proof. unfold zmem. intros H. apply existsb_exists in H. destruct H as [x [I E]]. apply Z.eqb_eq in E. subst. auto. Qed.

Lemma create_world e c self sender i ty amp ds mf w p w' : Good w ->
  fact_create e c self sender i ty amp ds mf w = Ok (p, w') ->
  exists f, fget self (w_fact w) = Some f /\ authed e c sender = true /\ In sender (f_white f) /\ i_ta i < i_tb i /\
    p = e_hash e self (SPair (i_ta i) (i_tb i)) /\ fget p (w_code w) = None /\ fget p (w_code w') = Some (kind_of ty) /\
    fget self (w_fact w') = Some (reg_new f (i_ta i) (i_tb i) p) /\
    (forall c', c' <> self -> fget c' (w_fact w') = fget c' (w_fact w)) /\
    pool_tokens w' p = Some (i_ta i, i_tb i).
Proof.
  intros G H. apply fact_create_ok in H.
  destruct H as [f [w1 [w2 [Cf [Ef [Au [Wh [Lt [_ [_ [Ep [Pp [Np [E1 [Hm E2]]]]]]]]]]]]]]].
  exists f. repeat (split; [auto; fail|]). split; [apply zmem_in'; auto|]. split; [auto|]. split; [auto|]. split; [auto|].
  assert (Q : w_fact w2 = w_fact w /\ fget p (w_code w2) = Some (kind_of ty) /\ pool_tokens w2 p = Some (i_ta i, i_tb i)).
  { destruct ty.
    - apply pool_initialize_ok in Hm. destruct Hm as [C1 [_ [_ [_ [NP E]]]]]. cbv zeta in E.
      destruct NP as [_ _ _ _ Ns Nk _ _ _ _ _]. subst w2. split; [subst w1; reflexivity|]. split.
      + simpl. rewrite !fget_set_other by congruence. auto.
      + unfold pool_tokens. simpl. rewrite fget_set_same. reflexivity.
    - destruct Hm as [a [_ Hm]]. apply stable_initialize_ok in Hm.
      destruct Hm as [C1 [_ [_ [_ [_ [_ [_ [pa [pb [_ [_ [NP E]]]]]]]]]]]]. cbv zeta in E.
      destruct NP as [_ _ _ _ Ns Nk _ _ _ _ _]. subst w2. split; [subst w1; reflexivity|]. split.
      + simpl. rewrite !fget_set_other by congruence. auto.
      + unfold pool_tokens. simpl. rewrite fget_set_same.
        destruct (fget p (w_pool w1)) eqn:Ex; [|reflexivity].
        exfalso. subst w1. simpl in Ex. apply (gd_cpool _ G) in Ex. congruence. }
  destruct Q as [Qf [Qc Qt]]. subst w'. simpl. split; [exact Qc|]. rewrite Qf. split; [apply fget_set_same|].
  split; [intros c' N; apply fget_set_other; auto|]. exact Qt.
Qed.

Theorem fact_step e k w w' c f : exec e k w = Ok (tt, w') -> Good w -> fget c (w_fact w) = Some f ->
  exists f', fget c (w_fact w') = Some f' /\ FStep e k w w' c f f'.
Proof.
  intros H G Ev.
  destruct (exec_framec _ _ _ _ H G) as [G' [X' [_ [_ U]]]].
  pose proof (gd_cfact _ G _ _ Ev) as Hc.
  destruct (exists_dec_acts k c KFact) as [[T|[T [E|E]]]|N]; [|discriminate..|].
  - pose proof (exec_tkind _ _ _ _ _ H T) as TK. rewrite Hc in TK.
    destruct k; simpl in T, TK; inversion T; try discriminate TK; subst; simpl in H.
    + apply fact_initialize_ok in H. destruct H as [_ [H _]]. congruence.
    + apply drop_ok in H. destruct H as [p H]. apply (create_world _ _ _ _ _ _ _ _ _ _ _ _ G) in H.
      destruct H as [f0 [E0 [Au [Wh [Lt [Ep [Np [Cp [E1 [_ Tk]]]]]]]]]]. rewrite Ev in E0. inversion E0; subst f0.
      eexists. split; [exact E1|]. rewrite authed_none in Au. eapply fs_create; eauto.
    + unfold fact_update_whitelist in H. rstep H. winv.
      match goal with R : fget c (w_fact w) = Some ?q |- _ => rewrite Ev in R; inversion R; subst q end.
      simpl. rewrite fget_set_same. eexists. split; [reflexivity|]. rewrite authed_none in *. eapply fs_white; eauto. lia.
    + unfold fact_update_hashes in H. rstep H. winv.
      match goal with R : fget c (w_fact w) = Some ?q |- _ => rewrite Ev in R; inversion R; subst q end.
      simpl. rewrite fget_set_same. eexists. split; [reflexivity|]. rewrite authed_none in *. eapply fs_hash; eauto.
    + unfold fact_update in H. rstep H. winv.
      match goal with R : fget c (w_fact w) = Some ?q |- _ => rewrite Ev in R; inversion R; subst q end.
      simpl. rewrite fget_set_same. eexists. split; [reflexivity|]. rewrite authed_none in *. eapply fs_hash; eauto.
  - specialize (U _ _ Hc N). rewrite (ut_fact _ _ _ U). exists f. split; auto. apply fs_same.
Qed.

Theorem fact_fresh e k w w' c f' : exec e k w = Ok (tt, w') -> Good w -> fget c (w_fact w) = None -> fget c (w_fact w') = Some f' ->
  exists a h lph stakeh tokh stabh white lpdec, f' = mkFact a h lph stakeh tokh stabh white lpdec [] fempty /\ white <> [] /\
    h = e_hash e c (SOne a) /\ k = CFactInit c a lph stabh stakeh tokh white lpdec.
Proof.
  intros H G En Hx.
  destruct (exec_framec _ _ _ _ H G) as [G' [X' [_ [_ U]]]].
  destruct (fget c (w_code w)) as [kd|] eqn:Ec.
  - assert (kd = KFact).
    { pose proof (ex_code _ _ X' _ _ Ec). pose proof (gd_cfact _ G' _ _ Hx). congruence. }
    subst kd.
    destruct (exists_dec_acts k c KFact) as [[T|[T [E|E]]]|N]; [|discriminate..|].
    + pose proof (exec_tkind _ _ _ _ _ H T) as TK. rewrite Ec in TK.
      destruct k; simpl in T, TK; inversion T; try discriminate TK; subst; simpl in H.
      { apply fact_initialize_ok in H. destruct H as [_ [_ [Nw H]]]. cbv zeta in H. destruct H as [_ [_ ->]].
        simpl in Hx. rewrite fget_set_same in Hx. inversion Hx; subst. do 8 eexists. split; [reflexivity|]. split; [exact Nw|]. split; reflexivity. }
      { apply drop_ok in H. destruct H as [p H]. apply (create_world _ _ _ _ _ _ _ _ _ _ _ _ G) in H. destruct H as [f0 [E0 _]]. congruence. }
      all: exfalso; match type of H with ?m = _ => unfold fact_update_whitelist, fact_update_hashes, fact_update in H end; rstep H; winv; congruence.
    + specialize (U _ _ Ec N). rewrite (ut_fact _ _ _ U) in Hx. congruence.
  - destruct (deploys k) eqn:D.
    + exfalso. destruct k; try discriminate D.
      6:{ simpl in H. apply drop_ok in H. destruct H as [p H]. apply (create_world _ _ _ _ _ _ _ _ _ _ _ _ G) in H.
          destruct H as [f0 [E0 [_ [_ [_ [_ [_ [_ [_ [Ot _]]]]]]]]]].
          destruct (Z.eq_dec c f) as [->|Ne]; [congruence|]. rewrite Ot in Hx by auto. congruence. }
      all: deploy_cases H; try (subst w'; simpl in Hx; rewrite ?fget_set in Hx; congruence).
      subst w'. simpl in Hx. rewrite fget_set in Hx. destruct (Z.eqb_spec c f); [|congruence]. congruence.
    + pose proof (exec_samecode e k D _ _ _ H) as Sc. unfold SameCode in Sc. pose proof (gd_cfact _ G' _ _ Hx). congruence.
Qed.

(** ** The registry invariant *)
Record FactInv (H : Addr -> Salt -> Addr) (w : World) (c : Addr) (f : Fact) : Prop := {
  fi_nodup : NoDup (f_lps f);
  fi_listed : forall p, In p (f_lps f) <-> exists a b, pair_get f a b = Some p;
  fi_pair : forall a b p, pair_get f a b = Some p -> a < b /\ p = H c (SPair a b) /\ pool_tokens w p = Some (a, b) }.

Definition AllFact (H : Addr -> Salt -> Addr) (w : World) : Prop := forall c f, fget c (w_fact w) = Some f -> FactInv H w c f.

Lemma NoDup_snoc {A} (x : A) l : NoDup l -> ~ In x l -> NoDup (l ++ [x]).
Proof.
  intros N I. induction N as [|y l N1 N2 IH]; simpl.
  - constructor; [auto|constructor].
  - constructor.
    + rewrite in_app_iff. simpl. intros [Q|[Q|[]]]; [auto|]. subst. apply I. left; auto.
    + apply IH. intros Q. apply I. right; auto.
Qed.

Lemma fact_inv_step H w e k w' c f f' : reachable H w -> e_hash e = H -> exec e k w = Ok (tt, w') ->
  FStep e k w w' c f f' -> FactInv H w c f -> FactInv H w' c f'.
Proof.
  intros R Eh X St [N L P]. pose proof (reach_good _ _ R) as G.
  assert (P' : forall a b p, pair_get f a b = Some p -> a < b /\ p = H c (SPair a b) /\ pool_tokens w' p = Some (a, b)).
  { intros a b p Q. destruct (P _ _ _ Q) as [A [B C]]. split; auto. split; auto. eapply pool_tokens_tx; eauto. }
  destruct St as [u i ty amp ds mf p Ek Sg Wh Lt Ep Np Cp Tk|u add rm Ek Eu Sg|a b t s Ek Sg|].
  - assert (Nl : ~ In p (f_lps f)).
    { intros I. apply L in I. destruct I as [a [b Q]]. destruct (P _ _ _ Q) as [_ [_ C]].
      destruct (pool_tokens_code _ _ _ G C); congruence. }
    assert (Nq : pair_get f (i_ta i) (i_tb i) = None).
    { destruct (pair_get f (i_ta i) (i_tb i)) as [q|] eqn:Q; auto. exfalso. apply Nl. apply L.
      exists (i_ta i), (i_tb i). destruct (P _ _ _ Q) as [_ [B _]]. rewrite Ep, Eh. congruence. }
    constructor.
    + simpl. apply NoDup_snoc; auto.
    + intros q. simpl. rewrite in_app_iff. simpl. split.
      * intros [I|[<-|[]]].
        -- apply L in I. destruct I as [a [b Q]]. exists a, b. rewrite pair_get_new.
           destruct (Z.eqb_spec a (i_ta i)) as [->|]; simpl; auto. destruct (Z.eqb_spec b (i_tb i)) as [->|]; auto. congruence.
        -- exists (i_ta i), (i_tb i). rewrite pair_get_new, !Z.eqb_refl. reflexivity.
      * intros [a [b Q]]. rewrite pair_get_new in Q. destruct ((a =? i_ta i) && (b =? i_tb i)).
        -- inversion Q; auto.
        -- left. apply L. eauto.
    + intros a b q Q. rewrite pair_get_new in Q. destruct ((a =? i_ta i) && (b =? i_tb i)) eqn:B; [|auto].
      inversion Q; subst q. assert (a = i_ta i /\ b = i_tb i) as [-> ->] by lia. split; auto. split; [congruence|auto].
  - constructor; auto.
  - constructor; auto.
  - constructor; auto.
Qed.

Theorem reach_fact H w : reachable H w -> AllFact H w.
Proof.
  apply reach_ind2; [intros c f Hf; discriminate|].
  intros w0 ev w1 R St A c f' Hx. inversion St as [e0 k0 w2 Eh X|]; subst.
  - pose proof (reach_good _ _ R) as G. destruct (fget c (w_fact w0)) as [f|] eqn:E.
    + destruct (fact_step _ _ _ _ _ _ X G E) as [f2 [E2 F]]. rewrite Hx in E2. inversion E2; subst f2.
      eapply fact_inv_step; eauto.
    + destruct (fact_fresh _ _ _ _ _ _ X G E Hx) as [a [h [h1 [h2 [h3 [h4 [wl [ld [-> _]]]]]]]]].
      constructor; simpl.
      * constructor.
      * intros p. split; [tauto|]. intros [x [y Q]]. discriminate.
      * intros x y p Q. discriminate.
  - destruct (A _ _ Hx) as [N L P]. constructor; [exact N|exact L|exact P].
Qed.

(** ** Wiring of a pool with its share token and stake contract *)
(** What query_pool_info_for_factory answers. *)
Definition pool_row (w : World) (p : Addr) : option PoolInfo :=
  match fget p (w_pool w) with
  | Some x => Some (mkPoolInfo (p_ta x) (p_ra x) (p_tb x) (p_rb x) (p_share x) (p_total x) (p_stake x) (p_fee x))
  | None => match fget p (w_stable w) with
            | Some x => Some (mkPoolInfo (l_ta x) (l_ra x) (l_tb x) (l_rb x) (l_share x) (l_total x) (l_stake x) (l_fee x))
            | None => None end
  end.
Lemma pool_row_tokens w p : pool_tokens w p = match pool_row w p with Some i => Some (q_ta i, q_tb i) | None => None end.
Proof. unfold pool_tokens, pool_row. destruct (fget p (w_pool w)); auto. destruct (fget p (w_stable w)); auto. Qed.

Lemma stake_lp_step e k w w' c s s' : SStep e k w w' c s s' -> s_lp s' = s_lp s.
Proof. intros St. destruct St as [? ? ? _ V|? ? ? ? ? _ V|? ? ? _ V|? ? ? ? ? _ V|? ? _ V|]; try (destruct V; subst s'; reflexivity). reflexivity. Qed.

Lemma stake_lp_tx H w e k w' c s : reachable H w -> exec e k w = Ok (tt, w') -> fget c (w_stake w) = Some s ->
  exists s', fget c (w_stake w') = Some s' /\ s_lp s' = s_lp s.
Proof.
  intros R X E. destruct (stake_step _ _ _ _ _ _ X (reach_good _ _ R) E (sv_nodup _ _ _ (reach_stake _ _ R _ _ E))) as [s' [E' St]].
  exists s'. split; auto. eapply stake_lp_step; eauto.
Qed.

Definition wired (w : World) (stk share : Addr) : Prop := exists s, fget stk (w_stake w) = Some s /\ s_lp s = share.

Lemma new_pool_wired e k w w' c p' : exec e k w = Ok (tt, w') -> Good w ->
  fget c (w_pool w) = None -> fget c (w_pool w') = Some p' -> wired w' (p_stake p') (p_share p').
Proof.
  intros H G Np Hp. unfold wired.
  destruct (routed k) eqn:R.
  { destruct (routed_maps _ _ _ _ H R G) as [M _]. rewrite (xm_pool_none _ _ M _ Np) in Hp. discriminate. }
  destruct (exec_framec _ _ _ _ H G) as [G' [X' [_ [_ U]]]].
  pose proof (gd_cpool _ G' _ _ Hp) as Hc'.
  destruct (fget c (w_code w)) as [kd|] eqn:Hc.
  - assert (kd = KPool) by (pose proof (ex_code _ _ X' _ _ Hc); congruence). subst kd.
    destruct (exists_dec_acts k c KPool) as [[T|[T _]]|N]; [|congruence|].
    2:{ rewrite (ut_pool _ _ _ (U _ _ Hc N)) in Hp. congruence. }
    pose proof (exec_tkind _ _ _ _ _ H T) as TK. rewrite Hc in TK.
    destruct k; simpl in T, TK; inversion T; try discriminate TK; subst; simpl in H;
      try (apply drop_ok in H; destruct H as [r H]).
    2-7: exfalso; unfold pool_provide, pool_swap, do_swap, pool_withdraw, pool_update_config, pool_update, pool_upgrade in H;
        rstep H; winv; congruence.
    apply pool_initialize_ok in H. destruct H as [_ [_ [_ [_ [_ H]]]]]. cbv zeta in H. subst w'.
    simpl in Hp. rewrite fget_set_same in Hp. inversion Hp; subst. simpl. rewrite fget_set_same. eexists. split; [reflexivity|]. reflexivity.
  - assert (D : deploys k = true).
    { destruct (deploys k) eqn:D; auto. pose proof (exec_samecode e k D _ _ _ H) as Sc. unfold SameCode in Sc. congruence. }
    destruct k; try discriminate D; deploy_cases H.
    1-5: subst w'; simpl in Hp; rewrite ?fget_set in Hp; try congruence.
    + destruct (Z.eqb_spec c p); congruence.
    + match goal with Q : match ty with Xyk => _ | StableT => _ end |- _ => rename Q into Hm end.
      subst. rename Hm into H. simpl in Hp.
      destruct ty; simpl in H.
      * apply pool_initialize_ok in H. destruct H as [_ [_ [_ [_ [_ H]]]]]. cbv zeta in H. rewrite H in Hp. simpl in Hp.
        rewrite fget_set in Hp. destruct (Z.eqb_spec c (e_hash e f (SPair (i_ta i) (i_tb i)))); [|congruence].
        inversion Hp; subst. simpl. rewrite fget_set_same. eexists. split; [reflexivity|]. reflexivity.
      * destruct H as [a [_ H]]. apply stable_initialize_ok in H.
        destruct H as [? [? [? [? [? [? [? [? [? [? [? [? H]]]]]]]]]]]]. cbv zeta in H. rewrite H in Hp. simpl in Hp. congruence.
Qed.

Lemma new_stable_wired e k w w' c p' : exec e k w = Ok (tt, w') -> Good w ->
  fget c (w_stable w) = None -> fget c (w_stable w') = Some p' -> wired w' (l_stake p') (l_share p').
Proof.
  intros H G Np Hp. unfold wired.
  destruct (routed k) eqn:R.
  { destruct (routed_maps _ _ _ _ H R G) as [M _]. rewrite (xm_stable_none _ _ M _ Np) in Hp. discriminate. }
  destruct (exec_framec _ _ _ _ H G) as [G' [X' [_ [_ U]]]].
  pose proof (gd_cstable _ G' _ _ Hp) as Hc'.
  destruct (fget c (w_code w)) as [kd|] eqn:Hc.
  - assert (kd = KStable) by (pose proof (ex_code _ _ X' _ _ Hc); congruence). subst kd.
    destruct (exists_dec_acts k c KStable) as [[T|[T _]]|N]; [|congruence|].
    2:{ rewrite (ut_stable _ _ _ (U _ _ Hc N)) in Hp. congruence. }
    pose proof (exec_tkind _ _ _ _ _ H T) as TK. rewrite Hc in TK.
    destruct k; simpl in T, TK; inversion T; try discriminate TK; subst; simpl in H;
      try (apply drop_ok in H; destruct H as [r H]).
    2-6: exfalso; unfold stable_provide, stable_swap, stable_do_swap, stable_withdraw, stable_update_config, stable_upgrade in H;
        rstep H; winv; congruence.
    apply stable_initialize_ok in H. destruct H as [? [? [? [? [? [? [? [? [? [? [? [? H]]]]]]]]]]]]. cbv zeta in H. subst w'.
    simpl in Hp. rewrite fget_set_same in Hp. inversion Hp; subst. simpl. rewrite fget_set_same. eexists. split; [reflexivity|]. reflexivity.
  - assert (D : deploys k = true).
    { destruct (deploys k) eqn:D; auto. pose proof (exec_samecode e k D _ _ _ H) as Sc. unfold SameCode in Sc. congruence. }
    destruct k; try discriminate D; deploy_cases H.
    1-5: subst w'; simpl in Hp; rewrite ?fget_set in Hp; try congruence.
    + destruct (Z.eqb_spec c p); congruence.
    + match goal with Q : match ty with Xyk => _ | StableT => _ end |- _ => rename Q into Hm end.
      subst. rename Hm into H. simpl in Hp.
      destruct ty; simpl in H.
      * apply pool_initialize_ok in H. destruct H as [_ [_ [_ [_ [_ H]]]]]. cbv zeta in H. rewrite H in Hp. simpl in Hp. congruence.
      * destruct H as [a [_ H]]. apply stable_initialize_ok in H.
        destruct H as [? [? [? [? [? [? [? [? [? [? [? [? H]]]]]]]]]]]]. cbv zeta in H. rewrite H in Hp. simpl in Hp.
        rewrite fget_set in Hp. destruct (Z.eqb_spec c (e_hash e f (SPair (i_ta i) (i_tb i)))); [|congruence].
        inversion Hp; subst. simpl. rewrite fget_set_same. eexists. split; [reflexivity|]. reflexivity.
Qed.

Definition AllWired (w : World) : Prop :=
  (forall c p, fget c (w_pool w) = Some p -> wired w (p_stake p) (p_share p)) /\
  (forall c p, fget c (w_stable w) = Some p -> wired w (l_stake p) (l_share p)).
Lemma wired_tx H w e k w' a b : reachable H w -> exec e k w = Ok (tt, w') -> wired w a b -> wired w' a b.
Proof. intros R X [s [E L]]. destruct (stake_lp_tx _ _ _ _ _ _ _ R X E) as [s' [E' L']]. exists s'. split; congruence. Qed.

Theorem reach_wired H w : reachable H w -> AllWired w.
Proof.
  apply reach_ind2; [split; intros c f Hf; discriminate|].
  intros w0 ev w1 R St [A B]. inversion St as [e0 k0 w2 Eh X|]; subst; [|exact (conj A B)].
  pose proof (reach_good _ _ R) as G. split; intros c p' Hx.
  - destruct (fget c (w_pool w0)) as [p|] eqn:E; [|eapply new_pool_wired; eauto].
    destruct (pool_step _ _ _ _ X G (reach_pool _ _ R) _ _ E) as [x' [E' [[_ _ S1 S2] _]]]. rewrite Hx in E'. inversion E'; subst x'.
    rewrite S1, S2. eapply wired_tx; eauto.
  - destruct (fget c (w_stable w0)) as [p|] eqn:E; [|eapply new_stable_wired; eauto].
    destruct (C32_settings_need_admin_name _ _ _ _ _ _ _ R E X) as [x' [E' [[_ [_ [S1 [S2 _]]]] _]]]. unfold stable_at in E'.
    rewrite Hx in E'. inversion E'; subst x'. rewrite S1, S2. eapply wired_tx; eauto.
Qed.
