(** contracts/vesting/src: schedules that release tokens along a curve (including the
    optional "minter" feature). *)
From Coq Require Import ZArith List Bool.
From Verif Require Import Base FMap Decimal Curve World Token Stake.
Import ListNotations.
Open Scope Z_scope.

Definition set_v_ent (v : Vest) (m : fmap (fmap VInfo)) : Vest :=
  mkVest (v_admin v) (v_token v) (v_maxc v) (v_minter v) m.
Definition set_v_minter (v : Vest) (m : option (Addr * Z)) : Vest :=
  mkVest (v_admin v) (v_token v) (v_maxc v) m (v_ent v).

(** Host decoding of a Curve argument: times are u64, values u128. *)
Definition typed_step (s : step) : bool := in_u64 (fst s) && in_u128 (snd s).
Definition typed_curve (c : curve) : bool :=
  match c with
  | Constant y => in_u128 y
  | SatLin a b d e => in_u64 a && in_u128 b && in_u64 d && in_u128 e
  | PieceLin s => forallb typed_step s
  end.

(** contract.rs:84-114 initialize, 117-149 initialize_with_minter (no authorisation).
    Token name, symbol and decimals are only stored; omitted. *)
Definition vest_initialize (self admin token maxc : Z) (minter : option (Addr * Z)) : ST World unit :=
  enter self KVest ;;
  w <- mget ;;
  mguard (negb (fmem self (w_vest w))) (EContract 31) ;;
  put_vest self (mkVest admin token maxc minter fempty).

(** utils.rs:19-56 validate_vesting_schedule; the caller's [expect] turns the Err into a panic *)
Definition validate_schedule (c : curve) : res Z :=
  match validate_dec c with
  | Some _ => Err EPanic
  | None =>
      match c with
      | Constant _ => Err (EContract 29)
      | SatLin _ b _ e => if e =? 0 then Ok b else Err (EContract 14)
      | PieceLin s =>
          match pl_end_value s, pl_first_value s with
          | Some ev, Some fv => if ev =? 0 then Ok fv else Err (EContract 14)
          | _, _ => Err EPanic
          end
      end
  end.

(** utils.rs:6-15 check_duplications *)
Fixpoint no_dup (l : list Addr) : bool :=
  match l with [] => true | a :: tl => negb (zmem a tl) && no_dup tl end.

(** storage.rs:106-127 save_vesting: first free index from 0 upwards; a map with n
    entries has a free index below n+1 *)
Fixpoint first_free (fuel : nat) (i : Z) (m : fmap VInfo) : Z :=
  match fuel with
  | O => i
  | S f => if fmem i m then first_free f (i + 1) m else i
  end.
Definition v_entries (v : Vest) (u : Addr) : fmap VInfo := fgetd fempty u (v_ent v).
Definition save_vesting (u : Addr) (x : VInfo) (v : Vest) : Vest :=
  let m := v_entries v u in
  set_v_ent v (fset u (fset (first_free (S (length m)) 0 m) x m) (v_ent v)).

(** contract.rs:171-195: the loop; accumulates the storage and the total *)
Fixpoint create_all (v : Vest) (l : list (Addr * curve)) (tot : Z) : res (Vest * Z) :=
  match l with
  | [] => Ok (v, tot)
  | (u, c) :: tl =>
      let? amt := validate_schedule c in
      assert? negb (v_maxc v <=? csize c) or EContract 8 in
      let? tot' := add_u tot amt in
      create_all (save_vesting u (mkVInfo amt u c) v) tl tot'
  end.

(** contract.rs:151-214 create_vesting_schedules *)
Definition vest_create (e : Env) (c : option Addr) (self : Addr) (l : list (Addr * curve)) : ST World unit :=
  enter self KVest ;;
  mguard (forallb (fun x => typed_curve (snd x)) l) EHost ;;
  v <- get_vest self ;;
  require_auth e c (v_admin v) ;;
  mguard (negb (match l with [] => true | _ => false end)) (EContract 7) ;;
  mguard (no_dup (map fst l)) (EContract 19) ;;
  ' (v', tot) <- mlift (create_all v l 0) ;;
  bal <- tok_balance (v_token v) (v_admin v) ;;
  ti <- mlift (u2i tot) ;;
  mguard (negb (bal <? ti)) (EContract 25) ;;
  put_vest self v' ;;
  tok_transfer e (Some self) (v_token v) (v_admin v) self ti.

(** storage.rs:143-159 get_vesting *)
Definition v_get (v : Vest) (u i : Z) : res VInfo := of_option (fget i (v_entries v u)) (EContract 1).
Definition v_put (v : Vest) (u i : Z) (x : VInfo) : Vest :=
  set_v_ent v (fset u (fset i x (v_entries v u)) (v_ent v)).

(** contract.rs:461-470 query_available_to_claim *)
Definition available (v : Vest) (t u i : Z) : res Z :=
  let? x := v_get v u i in
  let? locked := cvalue (vi_sched x) t in
  let? d := sub_u (vi_bal x) locked in
  u2i d.
Definition vest_available (self u i : Addr) : ST World Z :=
  enter self KVest ;; v <- get_vest self ;; t <- now ;; mlift (available v t u i).

(** contract.rs:216-265 claim *)
Definition vest_claim (e : Env) (c : option Addr) (self sender i : Addr) : ST World unit :=
  enter self KVest ;;
  require_auth e c sender ;;
  v <- get_vest self ;;
  t <- now ;;
  av <- mlift (available v t sender i) ;;
  mguard (negb (av <=? 0)) (EContract 14) ;;
  x <- mlift (v_get v sender i) ;;
  locked <- mlift (cvalue (vi_sched x) t) ;;
  mguard (negb (vi_bal x <? locked)) (EContract 26) ;;
  ua <- mlift (i2u av) ;;
  mguard (negb (vi_bal x - locked <? ua)) (EContract 11) ;;
  nb <- mlift (sub_u (vi_bal x) ua) ;;
  put_vest self (v_put v sender i (mkVInfo nb (vi_rcpt x) (vi_sched x))) ;;
  tok_transfer e (Some self) (v_token v) self sender av.

(** contract.rs:268-285 burn; [amount as i128] wraps *)
Definition vest_burn (e : Env) (c : option Addr) (self sender amt : Z) : ST World unit :=
  enter self KVest ;;
  require_auth e c sender ;;
  mguard (negb (amt =? 0)) (EContract 16) ;;
  v <- get_vest self ;;
  tok_burn e (Some self) (v_token v) sender (wrap_i128 amt).

(** contract.rs:288-340 mint *)
Definition vest_mint (e : Env) (c : option Addr) (self sender amt : Z) : ST World unit :=
  enter self KVest ;;
  require_auth e c sender ;;
  mguard (negb (amt <=? 0)) (EContract 17) ;;
  v <- get_vest self ;;
  m <- mlift (of_option (v_minter v) (EContract 3)) ;;
  mguard (sender =? fst m) (EContract 13) ;;
  ua <- mlift (i2u amt) ;;
  mguard (negb (snd m <? ua)) (EContract 12) ;;
  tok_mint e (Some self) (v_token v) self amt ;;
  put_vest self (set_v_minter v (Some (fst m, snd m - ua))).

(** contract.rs:343-376 update_minter *)
Definition vest_update_minter (e : Env) (c : option Addr) (self sender new : Addr) : ST World unit :=
  enter self KVest ;;
  require_auth e c sender ;;
  v <- get_vest self ;;
  mguard (match v_minter v with Some m => sender =? fst m | None => sender =? v_admin v end) (EContract 13) ;;
  put_vest self (set_v_minter v (Some (new, match v_minter v with Some m => snd m | None => 0 end))).

(** contract.rs:379-410 update_minter_capacity *)
Definition vest_update_capacity (e : Env) (c : option Addr) (self sender cap : Z) : ST World unit :=
  enter self KVest ;;
  require_auth e c sender ;;
  v <- get_vest self ;;
  mguard (sender =? v_admin v) (EContract 13) ;;
  m <- mlift (of_option (v_minter v) (EContract 3)) ;;
  put_vest self (set_v_minter v (Some (fst m, cap))).

(** contract.rs:412-459: plain reads; 472-478 update *)
Definition vest_query (self : Addr) : ST World Vest := enter self KVest ;; get_vest self.
Definition vest_update (e : Env) (c : option Addr) (self hash : Z) : ST World unit :=
  enter self KVest ;;
  v <- get_vest self ;;
  require_auth e c (v_admin v) ;;
  put_wasm self hash.

Arguments vest_initialize : simpl never.
Arguments vest_create : simpl never.
Arguments vest_claim : simpl never.
Arguments vest_burn : simpl never.
Arguments vest_mint : simpl never.
Arguments vest_update_minter : simpl never.
Arguments vest_update_capacity : simpl never.
Arguments vest_update : simpl never.
Arguments create_all : simpl never.
Arguments available : simpl never.
Arguments validate_schedule : simpl never.
