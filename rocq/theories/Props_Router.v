(** Properties of the multihop router and the trader, and of the whole system: C66-C71. *)
From Coq Require Import ZArith List Bool Lia.
From Coq Require Import ZifyBool.
From Verif Require Import Base FMap Decimal DecimalProofs Curve World Token TokenProofs Frame Stake Pool PoolProofs
  Stable StableProofs Rewards Vest Factory Router System SysFrame SysInv SysPool SysStable SysSupply SysVest SysStake Script Runs
  Props_Token Props_Pool Props_Stable Props_Vest Props_Stake SysFact Props_Factory SysAllow.
Import ListNotations.
Open Scope Z_scope.

(** ** C66 *)
(** User [u] swaps [x] directly at pool [p] (of either type) and gets [y]. *)
Definition direct_swap (e : Env) (p u : Addr) (o : SwapOp) (x : Z) (ms dl mf : option Z) (w : World) (y : Z) (w' : World) : Prop :=
  pool_swap e None p u (o_offer o) x (o_min o) ms dl mf w = Ok (y, w') \/
  stable_swap e None p u (o_offer o) x (o_min o) ms dl mf w = Ok (y, w').

(** The operations performed one after the other as direct swaps of [u], each at the pool registered
    for its pair of tokens, the first offering [x], each later one what the one before returned. *)
Inductive Legs (e : Env) (f u : Addr) (ms dl mf : option Z) : list SwapOp -> list Addr -> Z -> World -> Z -> World -> Prop :=
| legs_nil x w : Legs e f u ms dl mf [] [] x w x w
| legs_cons o ops p ps x y z w w1 w2 : fact_pool_by_pair f (o_offer o) (o_ask o) w = Ok (p, w) ->
    direct_swap e p u o x ms dl mf w y w1 -> Legs e f u ms dl mf ops ps y w1 z w2 ->
    Legs e f u ms dl mf (o :: ops) (p :: ps) x w z w2.

Definition in_chain (ops : list SwapOp) : Prop :=
  forall i a b, nth_error ops i = Some a -> nth_error ops (S i) = Some b -> o_ask a = o_offer b.

Lemma chained_spec ops : chained ops = true <-> in_chain ops.
Proof.
  induction ops as [|a ops IH]; [split; [intros _ i x y H; destruct i; discriminate|auto]|].
  destruct ops as [|b ops].
  - split; [|auto]. intros _ i x y H1 H2. destruct i; simpl in *; [discriminate|destruct i; discriminate].
  - cbn [chained]. rewrite andb_true_iff, Z.eqb_eq, IH. split.
    + intros [E C] i x y H1 H2. destruct i; simpl in *; [inversion H1; inversion H2; subst; auto|]. eapply (C i); eauto.
    + intros C. split; [apply (C 0%nat); reflexivity|]. intros i x y H1 H2. apply (C (S i)); auto.
Qed.

Lemma swap_caller e h p u o x mi ms dl mf w : signs e u = true ->
  pool_swap e (Some h) p u o x mi ms dl mf w = pool_swap e None p u o x mi ms dl mf w /\
  stable_swap e (Some h) p u o x mi ms dl mf w = stable_swap e None p u o x mi ms dl mf w.
Proof.
  intros S0. unfold pool_swap, stable_swap, require_auth, authed. rewrite S0. simpl orb. split; reflexivity.
Qed.

Lemma any_swap_direct e h p u o x mi ms dl mf w r w' : signs e u = true ->
  any_swap e (Some h) p u (o_offer o) x mi ms dl mf w = Ok (r, w') <->
  (pool_swap e None p u (o_offer o) x mi ms dl mf w = Ok (r, w') \/ stable_swap e None p u (o_offer o) x mi ms dl mf w = Ok (r, w')).
Proof.
  intros S0. destruct (swap_caller e h p u (o_offer o) x mi ms dl mf w S0) as [E1 E2].
  unfold any_swap, mbind, mget. split.
  - destruct (fget p (w_code w)) as [[]|]; try discriminate; [rewrite E1; auto|rewrite E2; auto].
  - intros [X|X].
    + rewrite (proj1 (pool_swap_ok _ _ _ _ _ _ _ _ _ _ _ _ _ X)), E1. auto.
    + rewrite (proj1 (stable_swap_ok _ _ _ _ _ _ _ _ _ _ _ _ _ X)), E2. auto.
Qed.

Lemma hop_legs e h f u ms dl mf ops : signs e u = true -> forall x w r w',
  hop_swaps e h f u ops x ms dl mf w = Ok (r, w') <-> exists ps, Legs e f u ms dl mf ops ps x w r w'.
Proof.
  intros S0. induction ops as [|o ops IH]; intros x w r w'.
  - simpl. unfold mret. split; [intros X; inversion X; subst; eexists; constructor|].
    intros [ps L]. inversion L; subst. reflexivity.
  - cbn [hop_swaps]. split.
    + intros X. apply mbind_ok in X. destruct X as [p [w1 [Q X]]].
      pose proof (pure_fact_pool_by_pair _ _ _ _ _ _ Q). subst w1.
      apply mbind_ok in X. destruct X as [y [w1 [D X]]]. apply any_swap_direct in D; auto.
      apply IH in X. destruct X as [ps L]. exists (p :: ps). econstructor; eauto.
    + intros [ps L]. inversion L as [|o0 ops0 p ps0 x0 y z w0 w1 w2 Q D L']; subst.
      rewrite (run_bind _ _ _ _ _ Q). rewrite (run_bind _ _ _ y w1); [apply IH; eauto|].
      apply any_swap_direct; auto.
Qed.

(** A multihop swap succeeds exactly if the list is not empty and in order, the user signs, and the
    user's direct swaps would succeed; and it leaves the ledger in the state these lead to. *)
Theorem C66_multihop_is_its_swaps H w e h d u ops ms amt dl mf r w' : reachable H w -> fget h (w_hop w) = Some d ->
  hop_swap e None h u ops ms amt dl mf w = Ok (r, w') <->
  ops <> [] /\ in_chain ops /\ u < 0 /\ In u (e_auth e) /\ exists ps, Legs e (h_fact d) u ms dl mf ops ps amt w r w'.
Proof.
  intros R E. pose proof (reach_good _ _ R) as G.
  assert (SG : signs e u = true <-> u < 0 /\ In u (e_auth e)).
  { unfold signs. rewrite andb_true_iff, Z.ltb_lt, existsb_exists. split; intros [A B]; (split; [auto|]).
    - destruct B as [y [I Q]]. apply Z.eqb_eq in Q. subst. auto.
    - exists u. split; [auto|apply Z.eqb_refl]. }
  unfold hop_swap. split.
  - intros X. apply mbind_ok in X. destruct X as [z1 [w1 [Q X]]]. apply enter_ok in Q. destruct Q as [_ ->].
    apply mbind_ok in X. destruct X as [z2 [w1 [Q X]]]. apply mguard_ok in Q. destruct Q as [N Q]. inversion Q; subst z2 w1; clear Q.
    apply mbind_ok in X. destruct X as [z2 [w1 [Q X]]]. apply mguard_ok in Q. destruct Q as [C Q]. inversion Q; subst z2 w1; clear Q.
    apply mbind_ok in X. destruct X as [z2 [w1 [Q X]]]. apply require_auth_ok in Q. destruct Q as [A ->].
    apply mbind_ok in X. destruct X as [d0 [w1 [Q X]]]. apply get_hop_ok in Q. destruct Q as [Q ->].
    rewrite E in Q. inversion Q; subst d0. rewrite authed_none in A.
    split; [intros ->; discriminate|]. split; [apply chained_spec; auto|]. apply SG in A as B. split; [tauto|]. split; [tauto|].
    eapply hop_legs; eauto.
  - intros [N [C [U [I L]]]]. assert (A : signs e u = true) by (apply SG; auto).
    rewrite (run_bind _ _ _ tt w) by (apply run_enter, (gd_chop _ G _ _ E)).
    rewrite (run_bind _ _ _ tt w) by (apply run_guard; destruct ops; [congruence|reflexivity]).
    rewrite (run_bind _ _ _ tt w) by (apply run_guard, chained_spec; auto).
    rewrite (run_bind _ _ _ tt w) by (apply run_auth; rewrite authed_none; auto).
    rewrite (run_bind _ _ _ d w) by (unfold get_hop; rewrite E; reflexivity).
    apply hop_legs; auto.
Qed.
Print Assumptions C66_multihop_is_its_swaps.

Theorem C66_bad_lists_rejected e c h u ops ms amt dl mf w r : ops = [] \/ ~ in_chain ops ->
  hop_swap e c h u ops ms amt dl mf w <> Ok r.
Proof.
  intros B X. destruct r as [r w']. unfold hop_swap in X.
  apply mbind_ok in X. destruct X as [z1 [w1 [Q X]]]. apply enter_ok in Q. destruct Q as [_ ->].
  apply mbind_ok in X. destruct X as [z2 [w1 [Q X]]]. apply mguard_ok in Q. destruct Q as [N Q]. inversion Q; subst z2 w1; clear Q.
  apply mbind_ok in X. destruct X as [z2 [w1 [Q X]]]. apply mguard_ok in Q. destruct Q as [C Q].
  destruct B as [->|B]; [discriminate|]. apply B, chained_spec. auto.
Qed.
Print Assumptions C66_bad_lists_rejected.

(** The recipient of the commissions of a pool. *)
Definition fee_recipient (w : World) (p : Addr) : option Addr :=
  match fget p (w_pool w) with
  | Some x => Some (p_feerec x)
  | None => match fget p (w_stable w) with Some x => Some (l_feerec x) | None => None end
  end.

(** what a single swap changes *)
Record LegF (e : Env) (w w' : World) (f p u : Addr) (o : SwapOp) (x y : Z) : Prop := {
  lg_pos : 0 < x; lg_ret : 0 <= y; lg_min : forall m, o_min o = Some m -> m <= y;
  lg_user : u < 0 /\ In u (e_auth e);
  lg_code : w_code w' = w_code w; lg_fact : w_fact w' = w_fact w; lg_hop : w_hop w' = w_hop w; lg_now : w_now w' = w_now w;
  lg_other : forall q, q <> p -> fget q (w_pool w') = fget q (w_pool w) /\ fget q (w_stable w') = fget q (w_stable w);
  lg_fee : forall q, fee_recipient w' q = fee_recipient w q;
  lg_sup : forall t, supply w' t = supply w t; lg_has : x <= bal w (o_offer o) u;
  lg_bal : exists rec fee, fee_recipient w p = Some rec /\ 0 <= fee /\ forall t a, bal w' t a = bal w t a
      - on ((t =? o_offer o) && (a =? u)) x + on ((t =? o_offer o) && (a =? p)) x
      + on ((t =? o_ask o) && (a =? u)) y + on ((t =? o_ask o) && (a =? rec)) fee
      - on ((t =? o_ask o) && (a =? p)) (y + fee) }.

Lemma leg_facts H w e f p u o x ms dl mf y w' : reachable H w -> e_hash e = H ->
  fact_pool_by_pair f (o_offer o) (o_ask o) w = Ok (p, w) -> direct_swap e p u o x ms dl mf w y w' ->
  reachable H w' /\ LegF e w w' f p u o x y.
Proof.
  intros R Eh Q D. pose proof (reach_good _ _ R) as G.
  assert (F : exists g, fact_at w f g).
  { unfold fact_pool_by_pair in Q. apply mbind_ok in Q. destruct Q as [z1 [w1 [Q1 Q]]]. apply enter_ok in Q1. destruct Q1 as [_ ->].
    apply mbind_ok in Q. destruct Q as [g [w1 [Q1 Q]]]. apply get_fact_ok in Q1. destruct Q1 as [Q1 ->]. eauto. }
  destruct F as [g Eg]. apply (pair_query_spec _ _ _ _ _ _ _ R Eg) in Q. destruct Q as [_ T].
  assert (R' : reachable H w').
  { destruct D as [D|D].
    - eapply (reach_tx H w e (CPoolSwap p u (o_offer o) x (o_min o) ms dl mf)); eauto. simpl. unfold drop, mbind. rewrite D. reflexivity.
    - eapply (reach_tx H w e (CStableSwap p u (o_offer o) x (o_min o) ms dl mf)); eauto. simpl. unfold drop, mbind. rewrite D. reflexivity. }
  split; [exact R'|]. pose proof (reach_good _ _ R') as G'.
  assert (SG : signs e u = true -> u < 0 /\ In u (e_auth e)).
  { unfold signs. rewrite andb_true_iff, Z.ltb_lt, existsb_exists. intros [A [y0 [I Q]]]. apply Z.eqb_eq in Q. subst. auto. }
  destruct D as [D|D].
  - assert (Ns : u <> p) by (eapply C14_sender_is_not_the_pool; [exact R| |exact D]; discriminate).
    destruct (swap_facts _ _ _ _ _ _ _ _ _ _ _ _ _ Ns D) as [s [s' [rx [ry [gr [fee [sp [buy F]]]]]]]].
    pose proof (sf_before F) as E1. pose proof (sf_after F) as E2. pose proof (sf_side F) as S1. pose proof (sf_auth F) as Au.
    pose proof (sf_rest F) as RW. pose proof (sf_others F) as OT. pose proof (sf_gross F) as Hg. pose proof (sf_same F) as SM.
    unfold pool_at in *. rewrite authed_none in Au.
    assert (B : buy = o_ask o).
    { unfold pool_tokens in T. rewrite E1 in T. pose proof (pi_ord _ _ _ (reach_pool _ _ R _ _ E1)) as Or.
      destruct T as [T|T]; inversion T; destruct S1 as [[A [B _]]|[A [A2 [B _]]]]; congruence || lia. }
    subst buy. destruct (sf_pos F) as [_ [_ [P1 [_ [P2 Pf]]]]].
    constructor; auto; [apply (sf_min F)|..].
    + rewrite RW. reflexivity.
    + rewrite RW. reflexivity.
    + rewrite RW. reflexivity.
    + rewrite RW. reflexivity.
    + intros q Nq. split; [apply OT; auto|]. rewrite RW. reflexivity.
    + intros q. unfold fee_recipient. destruct (Z.eq_dec q p) as [->|Nq].
      * rewrite E1, E2, SM. reflexivity.
      * rewrite (OT _ Nq). rewrite RW. reflexivity.
    + apply (sf_supply F).
    + apply pool_swap_ok in D. destruct D as [_ [_ [_ [_ D]]]]. destruct (do_swap_ok _ _ _ _ _ _ _ _ _ _ _ D Ns) as [q [cr [v1 [v2 [v3 SE]]]]].
      apply (mv_le _ _ _ _ _ _ (se_in _ _ _ _ _ _ _ _ _ _ _ _ _ _ _ _ SE)).
    + exists (p_feerec s), fee. split; [unfold fee_recipient; rewrite E1; auto|]. split; [auto|]. rewrite <- Hg. exact (sf_bal F).
  - assert (NN : None <> Some p) by discriminate.
    destruct (lswap_facts _ _ _ _ _ _ _ _ _ _ _ _ _ _ R NN D) as [s [s' [rx [ry [gr [fee [buy F]]]]]]].
    pose proof (lf_before F) as E1. pose proof (lf_after F) as E2. pose proof (lf_side F) as S1. pose proof (lf_auth F) as Au.
    pose proof (lf_rest F) as RW. pose proof (lf_others F) as OT. pose proof (lf_gross F) as Hg. pose proof (lf_same F) as SM.
    unfold stable_at in *. rewrite authed_none in Au.
    assert (Np : fget p (w_pool w) = None).
    { destruct (fget p (w_pool w)) eqn:Ep; auto. pose proof (gd_cpool _ G _ _ Ep). pose proof (gd_cstable _ G _ _ E1). congruence. }
    assert (B : buy = o_ask o).
    { unfold pool_tokens in T. rewrite Np, E1 in T. pose proof (li_ord _ _ _ (reach_stable _ _ R _ _ E1)) as Or.
      destruct T as [T|T]; inversion T; destruct S1 as [[A [B _]]|[A [A2 [B _]]]]; congruence || lia. }
    subst buy. destruct (lf_pos F) as [_ [_ [P1 [_ [P2 Pf]]]]].
    constructor; auto; [apply (lf_min F)|..].
    + rewrite RW. reflexivity.
    + rewrite RW. reflexivity.
    + rewrite RW. reflexivity.
    + rewrite RW. reflexivity.
    + intros q Nq. split; [rewrite RW; reflexivity|apply OT; auto].
    + intros q. unfold fee_recipient. destruct (Z.eq_dec q p) as [->|Nq].
      * rewrite E1, E2, SM. rewrite RW. reflexivity.
      * rewrite (OT _ Nq). rewrite RW. reflexivity.
    + apply (lf_supply F).
    + assert (Ns : u <> p) by (pose proof (gd_pos _ G _ _ (gd_cstable _ G _ _ E1)); intros ->; specialize (SG Au); lia).
      apply stable_swap_ok in D. destruct D as [_ [_ [_ [_ D]]]].
      destruct (stable_do_swap_ok _ _ _ _ _ _ _ _ _ _ _ D Ns) as [q [amp [sp [cm [ny [v1 [v2 [v3 SE]]]]]]]]. destruct SE. apply (mv_le _ _ _ _ _ _ ls_in).
    + exists (l_feerec s), fee. split; [unfold fee_recipient; rewrite Np, E1; auto|]. split; [auto|]. rewrite <- Hg. exact (lf_bal F).
Qed.

(** Balances after a multihop swap: the user pays [amt] of the first token and receives [r] of the
    last; nothing of the tokens in between, and nobody but the pools on the way and the recipients of
    their commissions gains or loses anything.  In particular the router keeps nothing. *)
Lemma legs_end H e f u ms dl mf : e_hash e = H -> forall ops ps x w r w', reachable H w -> Legs e f u ms dl mf ops ps x w r w' ->
  reachable H w' /\ w_code w' = w_code w /\ w_fact w' = w_fact w /\ w_now w' = w_now w /\
  (forall q, ~ In q ps -> fget q (w_pool w') = fget q (w_pool w) /\ fget q (w_stable w') = fget q (w_stable w)).
Proof.
  intros Eh. induction ops as [|o ops IH]; intros ps x w r w' R L; inversion L as [|o0 ops0 p ps0 x0 y z w0 w1 w2 Q D L']; subst; [tauto|].
  destruct (leg_facts _ _ _ _ _ _ _ _ _ _ _ _ _ R eq_refl Q D) as [R1 F]. destruct (IH _ _ _ _ _ R1 L') as [R2 [A [B [C E]]]].
  split; auto. rewrite A, B, C. split; [apply (lg_code _ _ _ _ _ _ _ _ _ F)|]. split; [apply (lg_fact _ _ _ _ _ _ _ _ _ F)|].
  split; [apply (lg_now _ _ _ _ _ _ _ _ _ F)|]. intros q Nq. destruct (E q ltac:(intros I; apply Nq; right; auto)) as [-> ->].
  apply (lg_other _ _ _ _ _ _ _ _ _ F). intros ->. apply Nq. left. auto.
Qed.

Definition first_offer (ops : list SwapOp) : Addr := match ops with o :: _ => o_offer o | [] => 0 end.
Definition last_ask (ops : list SwapOp) : Addr := o_ask (last ops (mkOp 0 0 None)).

Lemma legs_bal H e f u ms dl mf : e_hash e = H -> forall ops ps x w r w', reachable H w -> Legs e f u ms dl mf ops ps x w r w' ->
  in_chain ops -> ops <> [] -> forall t a, ~ In a ps -> (forall p, In p ps -> fee_recipient w p <> Some a) ->
  bal w' t a = bal w t a - on ((t =? first_offer ops) && (a =? u)) x + on ((t =? last_ask ops) && (a =? u)) r.
Proof.
  intros Eh. induction ops as [|o ops IH]; intros ps x w r w' R L C N t a Na Nf; [congruence|].
  inversion L as [|o0 ops0 p ps0 x0 y z w0 w1 w2 Q D L']; subst.
  destruct (leg_facts _ _ _ _ _ _ _ _ _ _ _ _ _ R eq_refl Q D) as [R1 F].
  destruct (lg_bal _ _ _ _ _ _ _ _ _ F) as [rec [fee [Ef [_ B]]]].
  assert (B1 : bal w1 t a = bal w t a - on ((t =? o_offer o) && (a =? u)) x + on ((t =? o_ask o) && (a =? u)) y).
  { rewrite B. assert (a =? p = false) as -> by (apply Z.eqb_neq; intros ->; apply Na; left; auto).
    assert (a =? rec = false) as ->. { apply Z.eqb_neq. intros ->. apply (Nf p); [left; auto|auto]. }
    rewrite !andb_false_r. unfold on at 2 4 5. lia. }
  destruct ops as [|o2 ops].
  - inversion L'; subst. simpl. unfold last_ask. simpl. exact B1.
  - rewrite (IH _ _ _ _ _ R1 L'); [| |discriminate| |].
    + rewrite B1. assert (E : o_ask o = o_offer o2) by (apply (C 0%nat); reflexivity).
      unfold last_ask. cbn [first_offer last]. rewrite E. lia.
    + intros i s1 s2 H1 H2. apply (C (S i)); auto.
    + intros I. apply Na. right. auto.
    + intros q Iq. rewrite (lg_fee _ _ _ _ _ _ _ _ _ F). apply Nf. right. auto.
Qed.

Lemma pair_local f a b w v p v1 : w_code v = w_code w -> w_fact v = w_fact w ->
  fact_pool_by_pair f a b v = Ok (p, v1) -> fact_pool_by_pair f a b w = Ok (p, w).
Proof.
  intros Ec Ef Q. unfold fact_pool_by_pair in *.
  apply mbind_ok in Q. destruct Q as [z1 [v2 [Q1 Q]]]. apply enter_ok in Q1. destruct Q1 as [C ->].
  apply mbind_ok in Q. destruct Q as [g [v2 [Q1 Q]]]. apply get_fact_ok in Q1. destruct Q1 as [Q1 ->].
  rewrite Ec in C. rewrite Ef in Q1.
  rewrite (run_bind _ _ _ tt w) by (apply run_enter; auto). rewrite (run_bind _ _ _ g w) by (unfold get_fact; rewrite Q1; reflexivity).
  destruct (pair_get g a b); [inversion Q; reflexivity|]. destruct (pair_get g b a); inversion Q; reflexivity.
Qed.
Lemma forall2_weaken {A B} (P Q : A -> B -> Prop) l1 l2 : (forall a b, P a b -> Q a b) -> Forall2 P l1 l2 -> Forall2 Q l1 l2.
Proof. intros I F. induction F; constructor; auto. Qed.
Lemma legs_pools H e f u ms dl mf : e_hash e = H -> forall ops ps x w r w', reachable H w -> Legs e f u ms dl mf ops ps x w r w' ->
  Forall2 (fun o p => fact_pool_by_pair f (o_offer o) (o_ask o) w = Ok (p, w)) ops ps.
Proof.
  intros Eh. induction ops as [|o ops IH]; intros ps x w r w' R L; inversion L as [|o0 ops0 p ps0 x0 y z w0 w1 w2 Q D L']; subst; [constructor|].
  constructor; [auto|]. destruct (leg_facts _ _ _ _ _ _ _ _ _ _ _ _ _ R eq_refl Q D) as [R1 F].
  specialize (IH _ _ _ _ _ R1 L'). eapply forall2_weaken; [|exact IH]. intros s q K. cbv beta in *.
  eapply pair_local; [| |exact K]; [apply (lg_code _ _ _ _ _ _ _ _ _ F)|apply (lg_fact _ _ _ _ _ _ _ _ _ F)].
Qed.

Theorem C66_multihop_balances H w e h u ops ms amt dl mf r w' d : reachable H w -> e_hash e = H -> fget h (w_hop w) = Some d ->
  hop_swap e None h u ops ms amt dl mf w = Ok (r, w') ->
  exists ps, Forall2 (fun o p => fact_pool_by_pair (h_fact d) (o_offer o) (o_ask o) w = Ok (p, w)) ops ps /\
    forall t a, ~ In a ps -> (forall p, In p ps -> fee_recipient w p <> Some a) ->
      bal w' t a = bal w t a - on ((t =? first_offer ops) && (a =? u)) amt + on ((t =? last_ask ops) && (a =? u)) r.
Proof.
  intros R Eh E X. apply (C66_multihop_is_its_swaps _ _ _ _ _ _ _ _ _ _ _ _ _ R E) in X.
  destruct X as [N [C [_ [_ [ps L]]]]]. exists ps. split; [eapply legs_pools; eauto|]. eapply legs_bal; eauto.
Qed.
Print Assumptions C66_multihop_balances.

Lemma legs_not_hop H e f u ms dl mf : e_hash e = H -> forall ops ps x w r w' h, reachable H w -> Legs e f u ms dl mf ops ps x w r w' ->
  fget h (w_code w) = Some KHop -> ~ In h ps.
Proof.
  intros Eh. induction ops as [|o ops IH]; intros ps x w r w' h R L Ch; inversion L as [|o0 ops0 p ps0 x0 y z w0 w1 w2 Q D L']; subst; [auto|].
  destruct (leg_facts _ _ _ _ _ _ _ _ _ _ _ _ _ R eq_refl Q D) as [R1 F].
  intros [->|I].
  - destruct D as [D|D]; [apply pool_swap_ok in D|apply stable_swap_ok in D]; destruct D as [D _]; congruence.
  - eapply IH; [exact R1|exact L'| |exact I]. rewrite (lg_code _ _ _ _ _ _ _ _ _ F). auto.
Qed.

Theorem C66_router_keeps_nothing H w e h u ops ms amt dl mf r w' d t : reachable H w -> e_hash e = H -> fget h (w_hop w) = Some d ->
  hop_swap e None h u ops ms amt dl mf w = Ok (r, w') -> (forall p, fee_recipient w p <> Some h) -> bal w' t h = bal w t h.
Proof.
  intros R Eh E X Nf. pose proof (reach_good _ _ R) as G. pose proof (gd_chop _ G _ _ E) as Ch.
  apply (C66_multihop_is_its_swaps _ _ _ _ _ _ _ _ _ _ _ _ _ R E) in X.
  destruct X as [N [C [U [_ [ps L]]]]].
  rewrite (legs_bal _ _ _ _ _ _ _ Eh _ _ _ _ _ _ R L C N t h); [| |auto].
  - pose proof (gd_pos _ G _ _ Ch). destruct (Z.eqb_spec h u); [lia|]. rewrite !andb_false_r. simpl. lia.
  - eapply legs_not_hop; eauto.
Qed.
Print Assumptions C66_router_keeps_nothing.

(** Each operation's minimum holds, so the last one's bounds the result. *)
Theorem C66_minimum_enforced H w e h u ops ms amt dl mf r w' d o m : reachable H w -> e_hash e = H -> fget h (w_hop w) = Some d ->
  hop_swap e None h u (ops ++ [o]) ms amt dl mf w = Ok (r, w') -> o_min o = Some m -> m <= r.
Proof.
  intros R Eh E X Em. apply (C66_multihop_is_its_swaps _ _ _ _ _ _ _ _ _ _ _ _ _ R E) in X.
  destruct X as [N [C [U [_ [ps L]]]]]. clear N C U E. revert ps amt w R L.
  induction ops as [|o1 ops IH]; intros ps x w R L; inversion L as [|o0 ops0 p ps0 x0 y z w0 w1 w2 Q D L']; subst;
    destruct (leg_facts _ _ _ _ _ _ _ _ _ _ _ _ _ R eq_refl Q D) as [R1 F].
  - inversion L'; subst. apply (lg_min _ _ _ _ _ _ _ _ _ F). auto.
  - eapply IH; eauto.
Qed.
Print Assumptions C66_minimum_enforced.

(** ** C67 *)
Lemma sim_local q o x w w' r w1 : w_code w' = w_code w -> fget q (w_pool w') = fget q (w_pool w) -> fget q (w_stable w') = fget q (w_stable w) ->
  w_now w' = w_now w -> any_simulate q o x w = Ok (r, w1) -> any_simulate q o x w' = Ok (r, w').
Proof.
  intros A B C D Q. unfold any_simulate in *. apply mbind_ok in Q. destruct Q as [v [v1 [Q1 Q]]]. inversion Q1; subst v v1; clear Q1.
  rewrite (run_bind _ _ _ w' w') by reflexivity. rewrite A. destruct (fget q (w_code w)) as [[]|]; try discriminate.
  - unfold pool_simulate_swap in *.
    apply mbind_ok in Q. destruct Q as [z1 [v2 [Q1 Q]]]. apply enter_ok in Q1. destruct Q1 as [E1 ->].
    rewrite (run_bind _ _ _ tt w') by (apply run_enter; congruence).
    apply mbind_ok in Q. destruct Q as [p [v2 [Q1 Q]]]. apply get_pool_ok in Q1. destruct Q1 as [E2 ->].
    rewrite (run_bind _ _ _ p w') by (unfold get_pool; rewrite B, E2; reflexivity).
    destruct ((o =? p_ta p) || (o =? p_tb p)); [|discriminate Q]. unfold mguard, mbind at 1 in Q. unfold mguard, mbind at 1.
    destruct (if o =? p_ta p then (p_ra p, p_rb p) else (p_rb p, p_ra p)) as [rs rb].
    unfold mbind, mlift in *.
    destruct (compute_swap rs rb x (dec_bps (p_fee p)) 0) as [cs|]; [|discriminate].
    destruct (add_i (cs_ret cs) (cs_comm cs)) as [t1|]; [|discriminate]. destruct (add_i t1 (cs_spread cs)); [|discriminate].
    inversion Q. reflexivity.
  - unfold stable_simulate_swap in *.
    apply mbind_ok in Q. destruct Q as [z1 [v2 [Q1 Q]]]. apply enter_ok in Q1. destruct Q1 as [E1 ->].
    rewrite (run_bind _ _ _ tt w') by (apply run_enter; congruence).
    apply mbind_ok in Q. destruct Q as [p [v2 [Q1 Q]]]. apply get_stable_ok in Q1. destruct Q1 as [E2 ->].
    rewrite (run_bind _ _ _ p w') by (unfold get_stable; rewrite C, E2; reflexivity).
    destruct ((o =? l_ta p) || (o =? l_tb p)); [|discriminate Q]. unfold mguard, mbind at 1 in Q. unfold mguard, mbind at 1.
    destruct (if o =? l_ta p then (l_ra p, l_rb p) else (l_rb p, l_ra p)) as [rs rb].
    destruct (if o =? l_ta p then (l_preca p, l_precb p) else (l_precb p, l_preca p)) as [ps pb].
    unfold mbind, mlift, now, mgets in *. rewrite D.
    destruct (i2u rs); [|discriminate]. destruct (i2u rb); [|discriminate]. destruct (i2u x); [|discriminate].
    destruct (amp_of p (w_now w)); [|discriminate].
    destruct (stable_compute_swap _ _ _ _ _ _ _ _) as [[[b1 b2] b3]|]; [|discriminate].
    destruct (add_i b1 b3) as [t1|]; [|discriminate]. destruct (add_i t1 b2); [|discriminate].
    inversion Q. reflexivity.
Qed.

Lemma any_quote H w e p u o x ms dl mf y w' r w1 : reachable H w -> direct_swap e p u o x ms dl mf w y w' ->
  any_simulate p (o_offer o) x w = Ok (r, w1) -> w1 = w /\ y = ss_ask r.
Proof.
  intros R D Q. unfold any_simulate, mbind, mget in Q. destruct D as [D|D].
  - rewrite (proj1 (pool_swap_ok _ _ _ _ _ _ _ _ _ _ _ _ _ D)) in Q.
    assert (Ns : u <> p) by (eapply C14_sender_is_not_the_pool; [exact R| |exact D]; discriminate).
    destruct (C16_quote_is_execution _ _ _ _ _ _ Q) as [A [_ B]]. split; auto. apply (B _ _ _ _ _ _ _ _ _ Ns D).
  - rewrite (proj1 (stable_swap_ok _ _ _ _ _ _ _ _ _ _ _ _ _ D)) in Q.
    assert (NN : None <> Some p) by discriminate.
    destruct (C31_stable_quote_is_execution _ _ _ _ _ _ _ R Q) as [A [_ B]]. split; auto. apply (B _ _ _ _ _ _ _ _ _ NN D).
Qed.

Lemma sims_legs H e f u ms dl mf : e_hash e = H -> forall ops ps x w r w' v a cs ss v', reachable H w ->
  Legs e f u ms dl mf ops ps x w r w' -> NoDup ps ->
  (* the quote is taken in a state that agrees on the pools still to come *)
  reachable H v -> w_code v = w_code w -> w_fact v = w_fact w -> w_now v = w_now w ->
  (forall q, In q ps -> fget q (w_pool w) = fget q (w_pool v) /\ fget q (w_stable w) = fget q (w_stable v)) ->
  hop_sims f ops x v = Ok ((a, cs, ss), v') -> v' = v /\ a = r /\ length cs = length ops /\ length ss = length ops.
Proof.
  intros Eh. induction ops as [|o ops IH]; intros ps x w r w' v a cs ss v' R L ND Rv Ec Ef En Ag S0;
    inversion L as [|o0 ops0 p ps0 x0 y z w0 w1 w2 Q D L']; subst.
  - inversion S0; subst. auto.
  - cbn [hop_sims] in S0. destruct (leg_facts _ _ _ _ _ _ _ _ _ _ _ _ _ R eq_refl Q D) as [R1 F].
    apply mbind_ok in S0. destruct S0 as [p' [v1 [Q' S0]]]. pose proof (pure_fact_pool_by_pair _ _ _ _ _ _ Q'). subst v1.
    assert (p' = p).
    { pose proof (pair_local _ _ _ _ _ _ _ Ec Ef Q'). congruence. }
    subst p'. apply mbind_ok in S0. destruct S0 as [sr [v1 [Sm S0]]].
    destruct (Ag p ltac:(left; auto)) as [Ag1 Ag2].
    pose proof (sim_local p (o_offer o) x v w sr v1 ltac:(auto) ltac:(auto) ltac:(auto) ltac:(auto) Sm) as Sm'.
    destruct (any_quote _ _ _ _ _ _ _ _ _ _ _ _ _ _ R D Sm') as [_ ->].
    assert (v1 = v).
    { unfold any_simulate, mbind, mget in Sm. destruct (fget p (w_code v)) as [[]|]; try discriminate.
      - apply (C16_quote_is_execution _ _ _ _ _ _ Sm).
      - apply (C31_stable_quote_is_execution _ _ _ _ _ _ _ Rv Sm). }
    subst v1. apply mbind_ok in S0. destruct S0 as [dd [v1 [Td S0]]].
    assert (v1 = v). { unfold tok_decimals in Td. rstep Td. winv. auto. }
    subst v1. apply mbind_ok in S0. destruct S0 as [[[a1 cs1] ss1] [v1 [S1 S2]]]. inversion S2; subst; clear S2.
    inversion ND as [|? ? Nin ND']; subst.
    destruct (IH _ _ _ _ _ v a cs1 ss1 v' R1 L' ND' Rv) as [A [B [C E]]]; auto.
    + rewrite (lg_code _ _ _ _ _ _ _ _ _ F). auto.
    + rewrite (lg_fact _ _ _ _ _ _ _ _ _ F). auto.
    + rewrite (lg_now _ _ _ _ _ _ _ _ _ F). auto.
    + intros q Iq. destruct (lg_other _ _ _ _ _ _ _ _ _ F q) as [-> ->]; [intros ->; auto|]. apply Ag. right. auto.
    + simpl. auto.
Qed.

Theorem C67_quote_is_execution H w e h d u ops ms amt dl mf r w' ps a cs ss w1 : reachable H w -> e_hash e = H -> fget h (w_hop w) = Some d ->
  Forall2 (fun o p => fact_pool_by_pair (h_fact d) (o_offer o) (o_ask o) w = Ok (p, w)) ops ps -> NoDup ps ->
  hop_simulate h ops amt w = Ok ((a, cs, ss), w1) ->
  hop_swap e None h u ops ms amt dl mf w = Ok (r, w') ->
  w1 = w /\ a = r /\ length cs = length ops /\ length ss = length ops.
Proof.
  intros R Eh E F2 ND Q X. apply (C66_multihop_is_its_swaps _ _ _ _ _ _ _ _ _ _ _ _ _ R E) in X.
  destruct X as [N [C [U [_ [ps' L]]]]]. pose proof (legs_pools _ _ _ _ _ _ _ Eh _ _ _ _ _ _ R L) as F2'.
  assert (ps' = ps).
  { clear L ND C N Q. revert ps F2. induction F2' as [|o p ops ps' Hp F2' IH]; intros ps F2; inversion F2; subst; [auto|].
    f_equal; [congruence|]. apply IH; auto. }
  subst ps'. unfold hop_simulate in Q.
  apply mbind_ok in Q. destruct Q as [z1 [v [Q1 Q]]]. apply enter_ok in Q1. destruct Q1 as [_ ->].
  apply mbind_ok in Q. destruct Q as [z2 [v [Q1 Q]]]. apply mguard_ok in Q1. destruct Q1 as [_ Q1]. inversion Q1; subst z2 v; clear Q1.
  apply mbind_ok in Q. destruct Q as [z2 [v [Q1 Q]]]. apply mguard_ok in Q1. destruct Q1 as [_ Q1]. inversion Q1; subst z2 v; clear Q1.
  apply mbind_ok in Q. destruct Q as [d0 [v [Q1 Q]]]. apply get_hop_ok in Q1. destruct Q1 as [Q1 ->].
  rewrite E in Q1. inversion Q1; subst d0.
  eapply sims_legs; eauto.
Qed.
Print Assumptions C67_quote_is_execution.

(** Conversely, whenever the swap succeeds the quote answers. *)
Lemma spot_fits x y dx : 0 < x -> 0 <= y <= I128_MAX -> 0 <= dx -> dx * y / x - gross_out x y dx <= BIG -> dx * y / x <= I128_MAX.
Proof.
  intros Px Py Pd L. destruct (gross_bounds x y dx Px ltac:(lia) Pd) as [G _]. set (s := dx * y / x) in *.
  destruct (Z_le_gt_dec (y + BIG) I128_MAX); [lia|].
  assert (Yb : 4 * BIG + 4 <= y) by (unfold I128_MAX, BIG in *; lia).
  assert (S2 : s <= 2 * y) by lia.
  pose proof (Z.mul_succ_div_gt (dx * y) x Px) as D. fold s in D.
  assert (dx < 3 * x).
  { assert (A : dx * y < x * (3 * y)) by nia. nia. }
  assert (Q : y / 4 <= x * y / (x + dx)).
  { apply Z.div_le_lower_bound; [lia|]. pose proof (Z.mul_div_le y 4 ltac:(lia)). pose proof (Z.div_pos y 4 ltac:(lia) ltac:(lia)). nia. }
  assert (BIG <= y / 4) by (apply Z.div_le_lower_bound; lia). unfold gross_out in *. lia.
Qed.

Theorem C16_swap_implies_quote H w e c self u offer amt mi ms dl mf ret w' : reachable H w -> c <> Some self ->
  pool_swap e c self u offer amt mi ms dl mf w = Ok (ret, w') ->
  exists r, pool_simulate_swap self offer amt w = Ok (r, w) /\ ss_ask r = ret.
Proof.
  intros R N X. pose proof (reach_good _ _ R) as G.
  assert (Ns : u <> self) by (eapply C14_sender_is_not_the_pool; eauto).
  apply pool_swap_ok in X. destruct X as [C [_ [_ [_ X]]]].
  destruct (do_swap_ok _ _ _ _ _ _ _ _ _ _ _ X Ns) as [p [cr [v1 [v2 [v3 SE]]]]]. destruct SE as [Ep Eo _ Nu Er _ _ _ Tot [q [Sq _]] _ _ _ _].
  pose proof (compute_swap_ok _ _ _ _ _ Nu) as SN. pose proof (reach_pool _ _ R _ _ Ep) as I.
  apply dec_from_ratio_ok in Sq. destruct Sq as [_ [Sq _]].
  assert (Yb : 0 <= res_other p offer <= I128_MAX).
  { pose proof (sn_y _ _ _ _ _ SN). pose proof (pi_ra _ _ _ I). pose proof (pi_rb _ _ _ I).
    pose proof (good_bal w (p_ta p) self G). pose proof (good_bal w (p_tb p) self G).
    unfold res_other in *. destruct (offer =? p_ta p); lia. }
  pose proof (sn_spread _ _ _ _ _ SN) as Sp. pose proof (sn_sum _ _ _ _ _ SN) as Sm.
  pose proof (sn_spread_pos _ _ _ _ _ SN). pose proof (sn_ret _ _ _ _ _ SN). pose proof (sn_comm_pos _ _ _ _ _ SN).
  assert (F : amt * res_other p offer / res_of p offer <= I128_MAX).
  { apply spot_fits; [apply (sn_x _ _ _ _ _ SN)|exact Yb|apply (sn_dx _ _ _ _ _ SN)|].
    rewrite <- Sp. unfold BIG, DEC, I128_MAX in *. lia. }
  exists (mkSimSwap (cs_ret cr) (cs_comm cr) (cs_spread cr) (cs_ret cr + cs_comm cr + cs_spread cr)). split; [|symmetry; exact Er].
  unfold pool_simulate_swap. rewrite (run_bind _ _ _ tt w) by (apply run_enter; auto).
  rewrite (run_bind _ _ _ p w) by (unfold get_pool; rewrite Ep; reflexivity).
  rewrite (run_bind _ _ _ tt w) by (apply run_guard; lia).
  assert (E1 : (if offer =? p_ta p then (p_ra p, p_rb p) else (p_rb p, p_ra p)) = (res_of p offer, res_other p offer)).
  { unfold res_of, res_other. destruct (offer =? p_ta p); reflexivity. }
  rewrite E1. rewrite (run_bind _ _ _ cr w) by (apply run_lift; auto).
  rewrite (run_bind _ _ _ (cs_ret cr + cs_comm cr) w) by (apply run_lift, add_i_intro; unfold I128_MIN; lia).
  rewrite (run_bind _ _ _ (cs_ret cr + cs_comm cr + cs_spread cr) w) by (apply run_lift, add_i_intro; unfold I128_MIN; lia).
  reflexivity.
Qed.
Print Assumptions C16_swap_implies_quote.

Theorem C31_swap_implies_quote H w e c self u offer amt mi ms dl mf ret w' : reachable H w -> c <> Some self ->
  stable_swap e c self u offer amt mi ms dl mf w = Ok (ret, w') ->
  exists r, stable_simulate_swap self offer amt w = Ok (r, w) /\ ss_ask r = ret.
Proof.
  intros R N X. pose proof (reach_good _ _ R) as G. pose proof X as X0.
  destruct (lswap_facts _ _ _ _ _ _ _ _ _ _ _ _ _ _ R N X) as [p0 [p' [xo [yo [g [f [buy F]]]]]]].
  assert (Ns : u <> self).
  { apply stable_swap_ok in X. destruct X as [C [A _]]. eapply authed_ne; eauto. }
  apply stable_swap_ok in X. destruct X as [C [_ [Pa [_ X]]]].
  destruct (stable_do_swap_ok _ _ _ _ _ _ _ _ _ _ _ X Ns) as [p [amp [sp [cm [ny [v1 [v2 [v3 SE]]]]]]]].
  destruct SE as [Ep Eo _ Am Ps SN Ca _ _ _ _ M1 _ _ _]. pose proof (reach_stable _ _ R _ _ Ep) as I.
  pose proof (sm_sum _ _ _ _ _ _ _ _ _ _ _ _ SN) as Sm. pose proof (sm_ny _ _ _ _ _ _ _ _ _ _ _ _ SN) as Ny.
  pose proof (sm_fit _ _ _ _ _ _ _ _ _ _ _ _ SN) as Ft. pose proof (sm_spread _ _ _ _ _ _ _ _ _ _ _ _ SN) as Sp.
  pose proof (mv_le _ _ _ _ _ _ M1) as Ml. pose proof (good_bal w offer u G) as Gb.
  assert (B : l_res p offer <= I128_MAX /\ l_oth p offer <= I128_MAX).
  { pose proof (li_ra _ _ _ I). pose proof (li_rb _ _ _ I).
    pose proof (good_bal w (l_ta p) self G). pose proof (good_bal w (l_tb p) self G).
    unfold l_res, l_oth. destruct (offer =? l_ta p); lia. }
  assert (i2u_run : forall z, 0 <= z -> i2u z = Ok z). { intros z Pz. unfold i2u. destruct (Z.ltb_spec z 0); [lia|]. reflexivity. }
  eexists. split.
  - unfold stable_simulate_swap. rewrite (run_bind _ _ _ tt w) by (apply run_enter; auto).
    rewrite (run_bind _ _ _ p w) by (unfold get_stable; rewrite Ep; reflexivity).
    rewrite (run_bind _ _ _ tt w) by (apply run_guard; lia).
    assert (E1 : (if offer =? l_ta p then (l_ra p, l_rb p) else (l_rb p, l_ra p)) = (l_res p offer, l_oth p offer)).
    { unfold l_res, l_oth. destruct (offer =? l_ta p); reflexivity. }
    assert (E3 : (if offer =? l_ta p then (l_preca p, l_precb p) else (l_precb p, l_preca p)) = (l_pof p offer, l_pot p offer)).
    { unfold l_pof, l_pot. destruct (offer =? l_ta p); reflexivity. }
    rewrite E1, E3. rewrite (run_bind _ _ _ (w_now w) w) by reflexivity.
    rewrite (run_bind _ _ _ (l_res p offer) w) by (apply run_lift, i2u_run; lia).
    rewrite (run_bind _ _ _ (l_oth p offer) w) by (apply run_lift, i2u_run; lia).
    rewrite (run_bind _ _ _ amt w) by (apply run_lift, i2u_run; lia).
    rewrite (run_bind _ _ _ amp w) by (apply run_lift; auto).
    rewrite (run_bind _ _ _ (ret, sp, cm) w) by (apply run_lift; auto). cbv beta iota.
    rewrite (run_bind _ _ _ (ret + cm) w) by (apply run_lift, add_i_intro; unfold I128_MIN; lia).
    rewrite (run_bind _ _ _ (ret + cm + sp) w) by (apply run_lift, add_i_intro; unfold I128_MIN; lia).
    reflexivity.
  - reflexivity.
Qed.
Print Assumptions C31_swap_implies_quote.

Lemma legs_sims H e f u ms dl mf : e_hash e = H -> forall ops ps x w r w' v, reachable H w ->
  Legs e f u ms dl mf ops ps x w r w' -> NoDup ps ->
  reachable H v -> w_code v = w_code w -> w_fact v = w_fact w -> w_now v = w_now w -> (forall t, supply v t = supply w t) ->
  (forall q, In q ps -> fget q (w_pool w) = fget q (w_pool v) /\ fget q (w_stable w) = fget q (w_stable v)) ->
  exists cs ss, hop_sims f ops x v = Ok ((r, cs, ss), v).
Proof.
  intros Eh. induction ops as [|o ops IH]; intros ps x w r w' v R L ND Rv Ec Ef En Es Ag;
    inversion L as [|o0 ops0 p ps0 x0 y z w0 w1 w2 Q D L']; subst; [eexists _, _; reflexivity|].
  destruct (leg_facts _ _ _ _ _ _ _ _ _ _ _ _ _ R eq_refl Q D) as [R1 F]. inversion ND as [|? ? Nin ND']; subst.
  destruct (IH _ _ _ _ _ v R1 L' ND' Rv) as [cs [ss IHs]].
  - rewrite (lg_code _ _ _ _ _ _ _ _ _ F). auto.
  - rewrite (lg_fact _ _ _ _ _ _ _ _ _ F). auto.
  - rewrite (lg_now _ _ _ _ _ _ _ _ _ F). auto.
  - intros t. rewrite (lg_sup _ _ _ _ _ _ _ _ _ F). auto.
  - intros q Iq. destruct (lg_other _ _ _ _ _ _ _ _ _ F q) as [-> ->]; [intros ->; auto|]. apply Ag. right. auto.
  - cbn [hop_sims]. rewrite (run_bind _ _ _ p v) by (eapply pair_local; [| |exact Q]; auto).
    destruct (Ag p ltac:(left; auto)) as [Ag1 Ag2].
    assert (NN : None <> Some p) by discriminate.
    assert (S0 : exists sr, any_simulate p (o_offer o) x v = Ok (sr, v) /\ ss_ask sr = y).
    { destruct D as [D|D].
      - destruct (C16_swap_implies_quote _ _ _ _ _ _ _ _ _ _ _ _ _ _ R NN D) as [sr [S1 S2]]. exists sr. split; auto.
        eapply sim_local with (w := w); eauto. unfold any_simulate, mbind, mget.
        rewrite (proj1 (pool_swap_ok _ _ _ _ _ _ _ _ _ _ _ _ _ D)). eauto.
      - destruct (C31_swap_implies_quote _ _ _ _ _ _ _ _ _ _ _ _ _ _ R NN D) as [sr [S1 S2]]. exists sr. split; auto.
        eapply sim_local with (w := w); eauto. unfold any_simulate, mbind, mget.
        rewrite (proj1 (stable_swap_ok _ _ _ _ _ _ _ _ _ _ _ _ _ D)). eauto. }
    destruct S0 as [sr [S1 S2]]. rewrite (run_bind _ _ _ sr v S1).
    assert (T : exists k, fget (o_offer o) (w_tok v) = Some k).
    { pose proof (good_supply w (o_offer o) u (reach_good _ _ R)). pose proof (lg_has _ _ _ _ _ _ _ _ _ F). pose proof (lg_pos _ _ _ _ _ _ _ _ _ F).
      specialize (Es (o_offer o)). unfold supply in Es at 1. destruct (fget (o_offer o) (w_tok v)); [eauto|lia]. }
    destruct T as [k T]. rewrite (run_bind _ _ _ (t_dec k) v) by (unfold tok_decimals, mbind, get_tok; rewrite T; reflexivity).
    rewrite S2. rewrite (run_bind _ _ _ (r, cs, ss) v IHs). eexists _, _. reflexivity.
Qed.

Theorem C67_swap_implies_quote H w e h d u ops ms amt dl mf r w' ps : reachable H w -> e_hash e = H -> fget h (w_hop w) = Some d ->
  Forall2 (fun o p => fact_pool_by_pair (h_fact d) (o_offer o) (o_ask o) w = Ok (p, w)) ops ps -> NoDup ps ->
  hop_swap e None h u ops ms amt dl mf w = Ok (r, w') ->
  exists cs ss, hop_simulate h ops amt w = Ok ((r, cs, ss), w).
Proof.
  intros R Eh E F2 ND X. apply (C66_multihop_is_its_swaps _ _ _ _ _ _ _ _ _ _ _ _ _ R E) in X. pose proof (reach_good _ _ R) as G.
  destruct X as [N [C [U [_ [ps' L]]]]]. pose proof (legs_pools _ _ _ _ _ _ _ Eh _ _ _ _ _ _ R L) as F2'.
  assert (ps' = ps).
  { clear L ND C N. revert ps F2. induction F2' as [|o p ops ps' Hp F2' IH]; intros ps F2; inversion F2; subst; [auto|].
    f_equal; [congruence|]. apply IH; auto. }
  subst ps'. destruct (legs_sims _ _ _ _ _ _ _ Eh _ _ _ _ _ _ w R L ND R) as [cs [ss S0]]; auto. exists cs, ss.
  unfold hop_simulate. rewrite (run_bind _ _ _ tt w) by (apply run_enter, (gd_chop _ G _ _ E)).
  rewrite (run_bind _ _ _ tt w) by (apply run_guard; destruct ops; [congruence|reflexivity]).
  rewrite (run_bind _ _ _ tt w) by (apply run_guard, chained_spec; auto).
  rewrite (run_bind _ _ _ d w) by (unfold get_hop; rewrite E; reflexivity). exact S0.
Qed.
Print Assumptions C67_swap_implies_quote.

(** ** C69, C70: the trader *)
Theorem C69_trader_funds H w e k w' d tr t : reachable H w -> fget d (w_trader w) = Some tr -> exec e k w = Ok (tt, w') ->
  bal w' t d < bal w t d ->
  In (d_admin tr) (e_auth e) /\
  (exists tok p x ms dl mi mf, k = CTrade d (d_admin tr) tok p x ms dl mi mf) \/
  In (d_admin tr) (e_auth e) /\ (exists to x tok, k = CTraderTransfer d (d_admin tr) to x tok).
Proof.
  intros R E X L. pose proof (reach_good _ _ R) as G. pose proof (gd_ctrader _ G _ _ E) as C.
  assert (SG : forall a, signs e a = true -> In a (e_auth e)).
  { intros a S0. unfold signs in S0. apply andb_prop in S0. destruct S0 as [_ S0]. apply existsb_exists in S0.
    destruct S0 as [y [I Q]]. apply Z.eqb_eq in Q. subst. auto. }
  destruct (exec_framec _ _ _ _ X G) as [_ [_ [_ [_ U]]]].
  destruct (exists_dec_acts k d KTrader) as [[T|[T P]]|N].
  - pose proof (exec_tkind _ _ _ _ _ X T) as TK. rewrite C in TK.
    destruct k; simpl in T, TK; inversion T; try discriminate TK; subst; simpl in X.
    + exfalso. unfold trader_initialize in X. rstep X. winv. unfold fmem in *. rewrite E in *. discriminate.
    + left. apply drop_ok in X. destruct X as [r X]. apply trader_trade_ok in X. destruct X as [dd [amt [_ [A [Ed [Es _]]]]]].
      rewrite E in Ed. inversion Ed; subst dd. rewrite authed_none in A. subst. split; [auto|]. do 7 eexists. reflexivity.
    + right. unfold trader_transfer in X.
      apply mbind_ok in X. destruct X as [z1 [v [Q X]]]. apply enter_ok in Q. destruct Q as [_ ->].
      apply mbind_ok in X. destruct X as [z2 [v [Q X]]]. apply require_auth_ok in Q. destruct Q as [A ->].
      apply mbind_ok in X. destruct X as [dd [v [Q X]]]. apply get_trader_ok in Q. destruct Q as [Q ->]. rewrite E in Q. inversion Q; subst dd.
      apply mbind_ok in X. destruct X as [z3 [v [Q1 X]]]. apply mguard_ok in Q1. destruct Q1 as [Q1 _]. apply Z.eqb_eq in Q1. subst.
      rewrite authed_none in A. split; [auto|]. do 3 eexists. reflexivity.
  - unfold pools_only in P. destruct P; congruence.
  - pose proof (ut_bal _ _ _ (U _ _ C N) t). lia.
Qed.
Print Assumptions C69_trader_funds.

(** C70 fails: inside the swap the pool asks the token to move the trader's tokens.  The trader is not the
    caller of the token and authorises nothing, so the token rejects the transfer. *)
Theorem C70_trade_never_succeeds H w e c d u tok p x ms dl mi mf r : reachable H w ->
  trader_trade e c d u tok p x ms dl mi mf w <> Ok r.
Proof.
  intros R X. destruct r as [r w']. pose proof (reach_good _ _ R) as G.
  apply trader_trade_ok in X. destruct X as [dd [amt [C [_ [_ [_ [_ [_ [_ X]]]]]]]]].
  pose proof (gd_pos _ G _ _ C) as P. unfold any_swap, mbind, mget in X.
  destruct (fget p (w_code w)) as [[]|] eqn:Cp; try discriminate.
  - assert (Ns : d <> p) by congruence. apply pool_swap_ok in X. destruct X as [_ [_ [_ [_ X]]]].
    destruct (do_swap_ok _ _ _ _ _ _ _ _ _ _ _ X Ns) as [q [cr [v1 [v2 [v3 SE]]]]].
    pose proof (se_auth _ _ _ _ _ _ _ _ _ _ _ _ _ _ _ _ SE) as A. eapply authed_contract; [exact P| |exact A]. congruence.
  - assert (Ns : d <> p) by congruence. apply stable_swap_ok in X. destruct X as [_ [_ [_ [_ X]]]].
    destruct (stable_do_swap_ok _ _ _ _ _ _ _ _ _ _ _ X Ns) as [q [amp [sp [cm [ny [v1 [v2 [v3 SE]]]]]]]]. destruct SE.
    eapply authed_contract; [exact P| |exact ls_auth]. congruence.
Qed.
Print Assumptions C70_trade_never_succeeds.

(** So tokens leave a trader only in transfers of its admin: exactly the amount named, of the token named. *)
Theorem C69_only_transfers H w e k w' d tr t : reachable H w -> fget d (w_trader w) = Some tr -> exec e k w = Ok (tt, w') ->
  bal w' t d < bal w t d ->
  In (d_admin tr) (e_auth e) /\ exists to x tok, k = CTraderTransfer d (d_admin tr) to x tok /\ to <> d /\
    match tok with Some y => y | None => d_out tr end = t /\ bal w t d - bal w' t d = x.
Proof.
  intros R E X L. destruct (C69_trader_funds _ _ _ _ _ _ _ _ R E X L) as [[A [tok [p [x [ms [dl [mi [mf ->]]]]]]]]|[A [to [x [tok ->]]]]].
  - exfalso. simpl in X. unfold drop in X. apply mbind_ok in X. destruct X as [y [w1 [X _]]].
    eapply C70_trade_never_succeeds; eauto.
  - split; auto. exists to, x, tok. simpl in X. unfold trader_transfer in X.
    apply mbind_ok in X. destruct X as [z1 [w1 [Q X]]]. apply enter_ok in Q. destruct Q as [_ ->].
    apply mbind_ok in X. destruct X as [z2 [w1 [Q X]]]. apply require_auth_ok in Q. destruct Q as [_ ->].
    apply mbind_ok in X. destruct X as [g [w1 [Q X]]]. apply get_trader_ok in Q. destruct Q as [Q ->].
    rewrite E in Q. inversion Q; subst g.
    apply mbind_ok in X. destruct X as [z3 [w1 [Q1 X]]]. apply mguard_ok in Q1. destruct Q1 as [_ Q1]; inversion Q1; subst z3 w1; clear Q1.
    apply tok_transfer_ok in X. destruct X as [_ [k [k' [U [T _]]]]].
    rewrite (bal_upd _ _ _ _ _ t d U) in *. destruct (Z.eqb_spec t (match tok with Some y => y | None => d_out tr end)) as [Et|]; [|lia].
    rewrite <- Et in U. rewrite (te_bal _ _ _ _ _ T) in *. rewrite (bal_get t k) in * by apply U. rewrite Z.eqb_refl in *. unfold ind in *.
    pose proof (te_pos _ _ _ _ _ T). destruct (Z.eqb_spec d to); repeat split; auto; lia.
Qed.
Print Assumptions C69_only_transfers.

(** ** C71 *)
(** Any call of any contract: an account that does not sign loses tokens only in transfer_from or
    burn_from by a signing spender, and then exactly the amount taken, which its approval covers. *)
Theorem C71_no_third_party_loss H w e k w' a t : reachable H w -> exec e k w = Ok (tt, w') -> a < 0 -> ~ In a (e_auth e) ->
  bal w' t a < bal w t a ->
  exists sp x, sp < 0 /\ In sp (e_auth e) /\ ((exists to, k = CTransferFrom t sp a to x) \/ k = CBurnFrom t sp a x) /\
    bal w t a - bal w' t a = x /\ x <= live_allowance w t a sp.
Proof.
  intros R X Pa Ns L. pose proof (reach_good _ _ R) as G.
  assert (S0 : signs e a = false).
  { destruct (signs e a) eqn:S0; auto. exfalso. apply Ns. unfold signs in S0. apply andb_prop in S0. destruct S0 as [_ S0].
    apply existsb_exists in S0. destruct S0 as [y [I Q]]. apply Z.eqb_eq in Q. subst. auto. }
  assert (SG : forall b, signs e b = true -> b < 0 /\ In b (e_auth e)).
  { unfold signs. intros b. rewrite andb_true_iff, Z.ltb_lt, existsb_exists. intros [A [y0 [I Q]]]. apply Z.eqb_eq in Q. subst. auto. }
  destruct (uses_allowance k) eqn:U.
  2:{ destruct (exec_frame _ _ _ _ X U G) as [_ [_ [_ [_ [F _]]]]]. pose proof (ac_bal _ _ _ (F _ Pa S0) t). lia. }
  assert (Fn : forall x, tk_fine w x).
  { intros x q Hq. destruct (gd_tok _ G _ _ Hq). constructor; auto. intros f s y z Q. apply tg_allow in Q. lia. }
  destruct k; try discriminate U; [rename t0 into t0, sp into s0, from into f0, to into to0, amt into x0|rename t0 into t0, sp into s0, from into f0, amt into x0].
  - change (tok_op e None t0 (OpTransferFrom s0 f0 to0 x0) w = Ok (tt, w')) in X.
    destruct (Z.eq_dec t t0) as [->|N]; [|rewrite (C02_other_tokens _ _ _ _ _ _ _ a N X) in L; lia].
    destruct (C02_only_owner_or_spender _ _ _ _ _ _ _ (Fn t0) X L) as [A|[sp [A [P B]]]]; [rewrite authed_none in A; congruence|].
    simpl in P. destruct (Z.eqb_spec s0 sp); [|simpl in P; lia]. destruct (Z.eqb_spec f0 a); [|simpl in P; lia]. simpl in P. subst.
    rewrite authed_none in A. apply SG in A. destruct A as [A1 A2]. exists sp, (bal w t0 a - bal w' t0 a).
    repeat split; auto. left. eexists. reflexivity.
  - change (tok_op e None t0 (OpBurnFrom s0 f0 x0) w = Ok (tt, w')) in X.
    destruct (Z.eq_dec t t0) as [->|N]; [|rewrite (C02_other_tokens _ _ _ _ _ _ _ a N X) in L; lia].
    destruct (C02_only_owner_or_spender _ _ _ _ _ _ _ (Fn t0) X L) as [A|[sp [A [P B]]]]; [rewrite authed_none in A; congruence|].
    simpl in P. destruct (Z.eqb_spec s0 sp); [|simpl in P; lia]. destruct (Z.eqb_spec f0 a); [|simpl in P; lia]. simpl in P. subst.
    rewrite authed_none in A. apply SG in A. destruct A as [A1 A2]. exists sp, (bal w t0 a - bal w' t0 a).
    repeat split; auto.
Qed.
Print Assumptions C71_no_third_party_loss.

(** An allowance grows only in an [approve] of exactly that allowance, signed by its owner. *)
Theorem C71_allowance_granted_by_owner H w ev w' t a s : reachable H w -> step H w ev w' ->
  live_allowance w t a s < live_allowance w' t a s ->
  exists e x ex, ev = Tx e (CApprove t a s x ex) /\ a < 0 /\ In a (e_auth e) /\ live_allowance w' t a s = x.
Proof.
  intros R St L. pose proof (reach_good _ _ R) as G.
  assert (P : 0 <= live_allowance w t a s).
  { unfold live_allowance. destruct (fget t (w_tok w)) as [k|] eqn:Ek; [|lia].
    destruct (tk_allow_entry a s k) as [[x0 ex0]|] eqn:Ea; [|lia]. destruct (w_seq w <=? ex0); [|lia].
    pose proof (tg_allow _ (gd_tok _ G _ _ Ek) _ _ _ _ Ea). lia. }
  inversion St as [e0 k0 w0 Eh X|n q B1 B2]; subst.
  - destruct k0 eqn:Ek;
      try (exfalso; apply exec_allow in X; [|intros; discriminate]; destruct X as [_ X]; specialize (X t a s); lia).
    simpl in X. pose proof X as X0. apply C03_approval_exact in X0. destruct X0 as [A [_ V]].
    assert (Q : t = t0 /\ a = from /\ s = sp).
    { apply tok_approve_ok in X. destruct X as [_ [_ [k1 [k2 [W U]]]]].
      destruct (Z.eq_dec t t0) as [->|N].
      - destruct (live_upd _ _ _ _ _ a s U) as [_ Q]. rewrite Q, (live_read w t0 k1) in L by apply U.
        apply tk_write_allowance_ok in W. destruct W as [_ [_ [_ [_ [_ [_ W]]]]]].
        specialize (W a s). unfold tk_read_allowance in L. rewrite W in L.
        destruct (Z.eqb_spec a from); [|simpl in L; lia]. destruct (Z.eqb_spec s sp); [auto|simpl in L; lia].
      - destruct U as [_ ->]. unfold live_allowance in L. simpl in L. rewrite fget_set_other in L by auto. lia. }
    destruct Q as [-> [-> ->]]. exists e0, amt, ex. rewrite authed_none in A. unfold signs in A.
    rewrite andb_true_iff, Z.ltb_lt, existsb_exists in A. destruct A as [A [y [I Q]]]. apply Z.eqb_eq in Q. subst y. auto.
  - exfalso. unfold live_allowance in *. simpl in L. destruct (fget t (w_tok w)) as [k|] eqn:Ek; [|lia].
    destruct (tk_allow_entry a s k) as [[x0 ex0]|] eqn:Ea; [|lia].
    pose proof (tg_allow _ (gd_tok _ G _ _ Ek) _ _ _ _ Ea).
    destruct (Z.leb_spec (w_seq w) ex0); destruct (Z.leb_spec q ex0); lia.
Qed.
Print Assumptions C71_allowance_granted_by_owner.

(** No contract's tokens can ever be pulled by a spender. *)
Theorem C71_contracts_grant_nothing H w t a s : reachable H w -> 0 <= a -> live_allowance w t a s <= 0.
Proof.
  intros R P. revert w R. apply reach_ind2; [unfold live_allowance; simpl; lia|].
  intros w ev w' R St I. destruct (Z_lt_le_dec (live_allowance w t a s) (live_allowance w' t a s)) as [L|L]; [|lia].
  destruct (C71_allowance_granted_by_owner _ _ _ _ _ _ _ R St L) as [e [x [ex [_ [N _]]]]]. lia.
Qed.
Print Assumptions C71_contracts_grant_nothing.

(** Whatever happens on the ledger: an account that signs nothing and has no open approval for a token
    never ends up with less of it. *)
Theorem C71_silent_account H w l w' t a : reachable H w -> a < 0 -> (forall s, live_allowance w t a s <= 0) ->
  run H w l w' -> (forall e k, In (Tx e k) l -> ~ In a (e_auth e)) -> bal w t a <= bal w' t a.
Proof.
  intros R Pa A X. revert R A. induction X as [w|w ev w1 l w2 St X IH]; intros R A N; [lia|].
  assert (R1 : reachable H w1) by (eapply step_reach; eauto).
  assert (L1 : bal w t a <= bal w1 t a).
  { inversion St as [e0 k0 w0 Eh Y|]; subst; [|unfold bal; simpl; lia].
    destruct (Z_lt_le_dec (bal w1 t a) (bal w t a)) as [L|]; auto.
    destruct (C71_no_third_party_loss _ _ _ _ _ _ _ R Y Pa (N _ _ (or_introl eq_refl)) L) as [sp [x [_ [_ [_ [E F]]]]]].
    specialize (A sp). lia. }
  assert (A1 : forall s, live_allowance w1 t a s <= 0).
  { intros s. destruct (Z_lt_le_dec (live_allowance w t a s) (live_allowance w1 t a s)) as [L|]; [|specialize (A s); lia].
    destruct (C71_allowance_granted_by_owner _ _ _ _ _ _ _ R St L) as [e [x [ex [E [_ [I _]]]]]]. subst ev.
    exfalso. eapply N; [left; reflexivity|exact I]. }
  specialize (IH R1 A1 (fun e k I => N e k (or_intror I))). lia.
Qed.
Print Assumptions C71_silent_account.
