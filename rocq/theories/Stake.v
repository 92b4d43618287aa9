(** contracts/stake/src: bonding of LP tokens and daily reward distributions. *)
From Coq Require Import ZArith List Bool.
From Verif Require Import Base FMap Decimal World Token.
Import ListNotations.
Open Scope Z_scope.

(** [x as u128] for an i128: wraps, never panics. *)
Definition as_u128 (x : Z) : Z := if x <? 0 then x + (U128_MAX + 1) else x.

Definition set_s_total (s : Stake) (t : Z) : Stake :=
  mkStake (s_lp s) (s_minbond s) (s_minreward s) (s_manager s) (s_owner s) (s_maxc s) (s_admin s)
          t (s_users s) (s_tsh s) (s_dists s) (s_rh s).
Definition set_s_users (s : Stake) (u : fmap Bonding) : Stake :=
  mkStake (s_lp s) (s_minbond s) (s_minreward s) (s_manager s) (s_owner s) (s_maxc s) (s_admin s)
          (s_total s) u (s_tsh s) (s_dists s) (s_rh s).
Definition set_s_hist (s : Stake) (tsh : fmap Z) (rh : fmap (fmap Z)) : Stake :=
  mkStake (s_lp s) (s_minbond s) (s_minreward s) (s_manager s) (s_owner s) (s_maxc s) (s_admin s)
          (s_total s) (s_users s) tsh (s_dists s) rh.
Definition set_s_dists (s : Stake) (d : list Addr) (rh : fmap (fmap Z)) : Stake :=
  mkStake (s_lp s) (s_minbond s) (s_minreward s) (s_manager s) (s_owner s) (s_maxc s) (s_admin s)
          (s_total s) (s_users s) (s_tsh s) d rh.

(** storage.rs:70-89 get_stakes *)
Definition s_user (s : Stake) (u : Addr) : Bonding := fgetd (mkBonding [] 0 0) u (s_users s).

(** contract.rs:81-137 initialize (no authorisation) *)
Definition stake_initialize (self admin lp minbond minreward manager owner maxc : Z) : ST World unit :=
  enter self KStake ;;
  w <- mget ;;
  mguard (negb (fmem self (w_stake w))) (EContract 1) ;;
  mguard (negb (minbond <=? 0)) (EContract 2) ;;
  mguard (negb (minreward <=? 0)) (EContract 3) ;;
  mguard (negb (maxc =? 0)) (EContract 12) ;;
  put_stake self (mkStake lp minbond minreward manager owner maxc admin 0 fempty fempty [] fempty).

(** contract.rs:139-174 bond.  The contract's storage is read once before the token
    call: the token does not call back. *)
Definition stake_bond (e : Env) (c : option Addr) (self sender tokens : Z) : ST World unit :=
  enter self KStake ;;
  require_auth e c sender ;;
  s <- get_stake self ;;
  mguard (negb (tokens <? s_minbond s)) (EContract 4) ;;
  tok_transfer e (Some self) (s_lp s) sender self tokens ;;
  t <- now ;;
  let b := s_user s sender in
  tot <- mlift (add_i (b_total b) tokens) ;;
  let b' := mkBonding (b_stakes b ++ [mkStakeE tokens t]) (b_last b) tot in
  all <- mlift (add_i (s_total s) tokens) ;;
  put_stake self (set_s_total (set_s_users s (fset sender b' (s_users s))) all).

(** contract.rs:397-410 remove_stake: the first entry that matches *)
Fixpoint remove_stake (l : list StakeE) (amt ts : Z) : res (list StakeE) :=
  match l with
  | [] => Err (EContract 8)
  | k :: tl => if (k_amt k =? amt) && (k_ts k =? ts) then Ok tl
               else let? tl' := remove_stake tl amt ts in Ok (k :: tl')
  end.

(** contract.rs:176-199 unbond *)
Definition stake_unbond (e : Env) (c : option Addr) (self sender amt ts : Z) : ST World unit :=
  enter self KStake ;;
  require_auth e c sender ;;
  s <- get_stake self ;;
  let b := s_user s sender in
  l <- mlift (remove_stake (b_stakes b) amt ts) ;;
  tot <- mlift (sub_i (b_total b) amt) ;;
  tok_transfer e (Some self) (s_lp s) self sender amt ;;
  all <- mlift (sub_i (s_total s) amt) ;;
  put_stake self (set_s_total (set_s_users s (fset sender (mkBonding l (b_last b) tot) (s_users s))) all).

Definition zmem (a : Z) (l : list Z) : bool := existsb (Z.eqb a) l.

(** contract.rs:201-218 create_distribution_flow, storage.rs:210-227 add_distribution *)
Definition stake_create_flow (e : Env) (c : option Addr) (self sender asset : Z) : ST World unit :=
  enter self KStake ;;
  require_auth e c sender ;;
  s <- get_stake self ;;
  mguard ((sender =? s_manager s) || (sender =? s_owner s)) (EContract 5) ;;
  mguard (negb (zmem asset (s_dists s))) (EContract 10) ;;
  put_stake self (set_s_dists s (s_dists s ++ [asset]) (fset asset fempty (s_rh s))).

(** contract.rs:220-260 distribute_rewards *)
Definition stake_distribute (e : Env) (c : option Addr) (self sender amt token : Z) : ST World unit :=
  enter self KStake ;;
  require_auth e c sender ;;
  s <- get_stake self ;;
  mguard ((sender =? s_manager s) || (sender =? s_owner s)) (EContract 5) ;;
  mguard (zmem token (s_dists s)) (EContract 13) ;;
  t <- now ;;
  h <- mlift (of_option (fget token (s_rh s)) EPanic) ;;
  put_stake self (set_s_hist s (fset t (as_u128 (s_total s)) (s_tsh s))
                               (fset token (fset t (as_u128 amt) h) (s_rh s))) ;;
  tok_transfer e (Some self) token sender self amt.

(** distribution.rs:100-114: reward of one stake for one distribution day *)
Definition SECONDS_PER_DAY : Z := 86400.
Definition stake_share (k : StakeE) (day daily total : Z) : res Z :=
  let? p := mul_u (as_u128 (k_amt k)) daily in
  let? sh := div_u p total in
  let? age := sub_64 day (k_ts k) in
  let days := age / SECONDS_PER_DAY in
  let? mult := (if 60 <=? days then Ok dec_one else dec_from_ratio days 60) in
  i_mul_dec (wrap_i128 sh) mult.

Fixpoint day_rewards (l : list StakeE) (day daily total acc : Z) : res Z :=
  match l with
  | [] => Ok acc
  | k :: tl => let? r := stake_share k day daily total in
               let? acc' := add_i acc r in day_rewards tl day daily total acc'
  end.

Fixpoint skip_lt (d : Z) (l : list Z) : list Z :=
  match l with [] => [] | x :: tl => if x <? d then skip_lt d tl else l end.
Fixpoint take_le (d : Z) (l : list Z) : list Z :=
  match l with [] => [] | x :: tl => if x <=? d then x :: take_le d tl else [] end.

(** distribution.rs:89-117: the loop over the relevant days *)
Fixpoint pend_days (days : list Z) (rh tsh : fmap Z) (l : list StakeE) (acc : Z) : res Z :=
  match days with
  | [] => Ok acc
  | d :: tl =>
      let? acc' :=
        (match fget d rh, fget d tsh with
         | Some daily, Some total =>
             if 0 <? total then day_rewards l d daily total acc else Ok acc
         | _, _ => Ok acc
         end) in
      pend_days tl rh tsh l acc'
  end.

(** distribution.rs:70-121 calculate_pending_rewards.  [fkeys] is ascending, like the
    keys of a host map. *)
Definition pending_rewards (s : Stake) (t : Z) (asset : Addr) (b : Bonding) : res Z :=
  let? rh := of_option (fget asset (s_rh s)) EPanic in
  match find (fun d => b_last b <? d) (fkeys rh) with
  | None => Ok 0
  | Some first => pend_days (take_le t (skip_lt first (fkeys rh))) rh (s_tsh s) (b_stakes b) 0
  end.

(** contract.rs:271-281 *)
Fixpoint pay_rewards (e : Env) (self sender : Addr) (s : Stake) (t : Z) (b : Bonding)
    (assets : list Addr) : ST World unit :=
  match assets with
  | [] => mret tt
  | a :: tl =>
      p <- mlift (pending_rewards s t a b) ;;
      tok_transfer e (Some self) a self sender p ;;
      pay_rewards e self sender s t b tl
  end.

(** contract.rs:262-284 withdraw_rewards: no authorisation of [sender].
    Simplification: on an uninitialised contract the code would only record a
    last_reward_time; here it fails. *)
Definition stake_withdraw_rewards (e : Env) (self sender : Addr) : ST World unit :=
  enter self KStake ;;
  s <- get_stake self ;;
  t <- now ;;
  let b := s_user s sender in
  pay_rewards e self sender s t b (s_dists s) ;;
  put_stake self (set_s_users s (fset sender (mkBonding (b_stakes b) t (b_total b)) (s_users s))).

(** contract.rs:389-393 update *)
Definition stake_update (e : Env) (c : option Addr) (self hash : Z) : ST World unit :=
  enter self KStake ;;
  s <- get_stake self ;;
  require_auth e c (s_admin s) ;;
  put_wasm self hash.

(** contract.rs:304-314 query_staked *)
Definition stake_query_staked (self u : Addr) : ST World Bonding :=
  enter self KStake ;; s <- get_stake self ;; mret (s_user s u).

(** contract.rs:316-321 query_total_staked *)
Definition stake_query_total (self : Addr) : ST World Z :=
  enter self KStake ;; s <- get_stake self ;; mret (s_total s).

(** contract.rs:344-361 query_withdrawable_rewards *)
Fixpoint query_pending (s : Stake) (t : Z) (b : Bonding) (assets : list Addr) : res (list (Addr * Z)) :=
  match assets with
  | [] => Ok []
  | a :: tl => let? p := pending_rewards s t a b in
               let? r := query_pending s t b tl in Ok ((a, as_u128 p) :: r)
  end.
Definition stake_query_rewards (self u : Addr) : ST World (list (Addr * Z)) :=
  enter self KStake ;;
  s <- get_stake self ;; t <- now ;; mlift (query_pending s t (s_user s u) (s_dists s)).

Arguments stake_initialize : simpl never.
Arguments stake_bond : simpl never.
Arguments stake_update : simpl never.
Arguments stake_unbond : simpl never.
Arguments stake_create_flow : simpl never.
Arguments stake_distribute : simpl never.
Arguments stake_withdraw_rewards : simpl never.
