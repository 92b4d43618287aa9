(** Allowances over whole histories: C260, C261. *)
From Coq Require Import ZArith List Bool Lia.
From Coq Require Import ZifyBool.
From Verif Require Import Base FMap Decimal Curve World Token TokenProofs Frame Stake Pool PoolProofs
  Stable Rewards Vest Factory Router System SysFrame SysInv Script Props_Token.
Import ListNotations.
Open Scope Z_scope.

(** Amount a successful operation approves for [sp] on behalf of [from]. *)
Definition op_approved (from sp : Z) (o : TokOp) : Z :=
  match o with OpApprove f s a _ => if (f =? from) && (s =? sp) then a else 0 | _ => 0 end.

(** ** C260 *)
Lemma hist_approved t from sp l : forall w w' x w'' y, tk_fine w t ->
  tok_hist t (op_pulled from sp) w l = (w', x) -> tok_hist t (op_approved from sp) w l = (w'', y) ->
  0 <= x /\ live_allowance w' t from sp + x <= live_allowance w t from sp + y.
Proof.
  induction l as [|ev l IH]; intros w w' x w'' y F H1 H2; cbn [tok_hist] in H1, H2; [inversion H1; inversion H2; subst; lia|].
  destruct (tok_event t w ev) as [w1 ok] eqn:E.
  destruct (tok_hist t (op_pulled from sp) w1 l) as [v1 x1] eqn:E1. destruct (tok_hist t (op_approved from sp) w1 l) as [v2 y1] eqn:E2.
  pose proof (event_fine _ _ _ _ _ E F) as F1. destruct (IH _ _ _ _ _ F1 E1 E2) as [A B].
  injection H1 as <- <-. injection H2 as <- <-.
  assert (G : (exists e c f s a k, ev = TCall e c (OpApprove f s a k) /\ f = from /\ s = sp) \/ no_approval from sp [ev]).
  { destruct ev as [e c o|]; [|right; intros ? ? ? [Q|[]]; discriminate].
    destruct (op_approves from sp o) eqn:Q; [left|right; intros ? ? ? [Q1|[]]; injection Q1 as <- <- <-; exact Q].
    destruct o; try discriminate. simpl in Q. apply andb_true_iff in Q. destruct Q as [Q1 Q2]. apply Z.eqb_eq in Q1, Q2.
    do 6 eexists. split; [reflexivity|]. split; assumption. }
  destruct G as [[e [c [f [s [a [k [-> [-> ->]]]]]]]]|N].
  - cbn [tok_event tok_op] in E. destruct (tok_approve e c t from sp a k w) as [[[] v]|er] eqn:Eo; injection E as <- <-; [|lia].
    destruct (C03_approval_exact _ _ _ _ _ _ _ _ _ Eo) as [_ [Pa La]]. cbn [op_pulled op_approved]. rewrite !Z.eqb_refl. cbn [andb].
    assert (0 <= live_allowance w t from sp); [|lia].
    unfold live_allowance. destruct (fget t (w_tok w)) as [kk|] eqn:Ek; [|lia].
    destruct (tk_allow_entry from sp kk) as [[a0 x0]|] eqn:Ea; [|lia].
    pose proof (to_allow _ (F _ Ek) _ _ _ _ Ea). destruct (_ <=? _); lia.
  - set (z := match ev with TCall _ _ o => if ok then op_pulled from sp o else 0 | TClock _ _ => 0 end).
    assert (Eh : tok_hist t (op_pulled from sp) w [ev] = (w1, z + 0)) by (cbn [tok_hist]; rewrite E; reflexivity).
    destruct (hist_pulled _ _ _ _ _ _ _ F N Eh) as [A1 B1].
    assert (0 <= match ev with TCall _ _ o => if ok then op_approved from sp o else 0 | TClock _ _ => 0 end); [|lia].
    destruct ev as [e c o|]; [|lia]. pose proof (N _ _ _ (or_introl eq_refl)) as No. destruct ok; [|lia].
    destruct o; cbn [op_approved]; try lia. cbn [op_approves] in No. rewrite No. lia.
Qed.

(** Over any history of a token a spender takes no more than what was left at first and all that was approved since,
    however often the owner approves. *)
Theorem C260_approvals_bound_what_is_taken t admin dec w0 w f l1 w1 x1 from sp l2 w2 pulled w2' approved :
  tok_deploy t admin dec w0 = Ok (tt, w) -> tok_hist t f w l1 = (w1, x1) ->
  tok_hist t (op_pulled from sp) w1 l2 = (w2, pulled) -> tok_hist t (op_approved from sp) w1 l2 = (w2', approved) ->
  0 <= pulled /\ pulled + live_allowance w2 t from sp <= live_allowance w1 t from sp + approved.
Proof.
  intros D H1 H2 H3. destruct (fine_fresh _ _ _ _ _ _ D) as [F _].
  pose proof (hist_fine _ _ _ _ _ _ H1 F) as F1. destruct (hist_approved _ _ _ _ _ _ _ _ _ F1 H2 H3). lia.
Qed.
Print Assumptions C260_approvals_bound_what_is_taken.

(** -3 takes 200 of the 300 approved, then -2 approves 150 and -3 takes 150 more and fails to take another unit *)
Definition al2 : list TokEvent := skipn 4 exL ++
  [ TCall (env_of [-2]) None (OpApprove (-2) (-3) 150 60); TCall (env_of [-3]) None (OpTransferFrom (-3) (-2) (-4) 150);
    TCall (env_of [-3]) None (OpTransferFrom (-3) (-2) (-4) 1) ].
Example C260_example :
  let w1 := fst (tok_hist 7 op_minted exW (firstn 4 exL)) in
  live_allowance w1 7 (-2) (-3) = 300 /\ snd (tok_hist 7 (op_pulled (-2) (-3)) w1 al2) = 350 /\
  snd (tok_hist 7 (op_approved (-2) (-3)) w1 al2) = 150 /\ live_allowance (fst (tok_hist 7 op_minted w1 al2)) 7 (-2) (-3) = 0.
Proof. vm_compute. auto. Qed.

(** ** C261: an owner who changes an allowance risks more than the larger of the two amounts *)
(** The new amount replaces what is left and not what was granted: a spender who is quicker than the change takes the old
    amount and then the new one. [a] is the allowance before, [b] the one the owner changes it to. *)
Theorem C261_changed_allowance_bounds_refuted :
  ~ (forall t admin dec w0 w f l1 w1 x1 from sp e b k l2 l3 w2 pulled,
       tok_deploy t admin dec w0 = Ok (tt, w) -> tok_hist t f w l1 = (w1, x1) -> no_approval from sp l2 -> no_approval from sp l3 ->
       tok_hist t (op_pulled from sp) w1 (l2 ++ [TCall e None (OpApprove from sp b k)] ++ l3) = (w2, pulled) ->
       pulled <= Z.max (live_allowance w1 t from sp) b).
Proof.
  intros T. set (l1 := firstn 4 exL). set (l2 := [TCall (env_of [-3]) None (OpTransferFrom (-3) (-2) (-4) 300)]).
  set (l3 := [TCall (env_of [-3]) None (OpTransferFrom (-3) (-2) (-4) 100)]).
  specialize (T 7 (-1) 7 w_empty exW op_minted l1 (fst (tok_hist 7 op_minted exW l1)) (snd (tok_hist 7 op_minted exW l1)) (-2) (-3) (env_of [-2]) 100 50 l2 l3
    (fst (tok_hist 7 (op_pulled (-2) (-3)) (fst (tok_hist 7 op_minted exW l1)) (l2 ++ [TCall (env_of [-2]) None (OpApprove (-2) (-3) 100 50)] ++ l3))) 400).
  assert (Q : live_allowance (fst (tok_hist 7 op_minted exW l1)) 7 (-2) (-3) = 300) by (vm_compute; reflexivity). rewrite Q in T.
  assert (400 <= Z.max 300 100); [|lia]. apply T; [vm_compute; reflexivity|vm_compute; reflexivity| | |vm_compute; reflexivity].
  - intros e c o [I|[]]. injection I as <- <- <-. reflexivity.
  - intros e c o [I|[]]. injection I as <- <- <-. reflexivity.
Qed.
Print Assumptions C261_changed_allowance_bounds_refuted.
