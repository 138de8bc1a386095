(** * Typed getters (C23-C26) and printing (C32). *)
From Coq Require Import SpecFloat.
From Verif Require Import GoBase GoStrings GoStringsProofs DatasetModel DatasetSpec DatasetProofs DatasetProofs2 FloatProofs.
Local Open Scope Z_scope.

Lemma typed_returns {A} h l key (conv : value -> option A) zero x :
  returns (fun n => typed n h l key conv zero) x <->
  exists r, gets h l key r /\ x = match r with Some v => match conv v with Some a => (a, true) | None => (zero, false) end | None => (zero, false) end.
Proof.
  split.
  - intros [n H]. apply on_dataset_ok in H as (t & m & Hi & H). destruct (dget n h t key) as [r| |] eqn:E; try done.
    injection H as <-. exists r. split; [|done]. rewrite (inside_gets _ _ _ _ _ _ Hi). by exists n.
  - intros (r & Hg & ->). destruct (gets_inside _ _ _ _ Hg) as (t & m & Hi). rewrite (inside_gets _ _ _ _ _ _ Hi) in Hg.
    destruct Hg as [n Hn]. destruct (on_dataset_inside (A := A * bool) _ _ _ _ Hi) as [N HN].
    exists (n + N)%nat. unfold typed. rewrite HN by lia. rewrite (dget_mono n (n + N) h t key (Ok r)); [done|lia|done|done].
Qed.

(** ** Printing: more fuel, other orders *)
Definition order_ok (ord : heap -> gmap bytes value -> list (bytes * value)) : Prop := forall h m, ord h m ≡ₚ map_to_list m.
Lemma show_entries_mono (f g : value -> outcome bytes) l x : (forall v y, f v = y -> y <> NoFuel -> g v = y) ->
  show_entries f l = x -> x <> NoFuel -> show_entries g l = x.
Proof.
  intros Hfg. revert x. induction l as [|[k v] l IH]; intros x; simpl; [done|].
  destruct (f v) as [t| |] eqn:E; [|intros <- _|by intros <-].
  - rewrite (Hfg _ _ E) by done. cbn [obind]. destruct (show_entries f l) as [ts| |] eqn:E'; [|intros <- _|by intros <-].
    + rewrite (IH _ eq_refl) by done. done.
    + rewrite (IH _ eq_refl) by done. done.
  - by rewrite (Hfg _ _ E).
Qed.
Lemma show_elements_mono (f g : value -> outcome bytes) i xs x : (forall v y, f v = y -> y <> NoFuel -> g v = y) ->
  show_elements f i xs = x -> x <> NoFuel -> show_elements g i xs = x.
Proof.
  intros Hfg. revert i x. induction xs as [|v xs IH]; intros i x; simpl; [done|].
  destruct (f _) as [t| |] eqn:E; [|intros <- _|by intros <-].
  - rewrite (Hfg _ _ E) by done. cbn [obind]. destruct (show_elements f (i + 1) xs) as [ts| |] eqn:E'; [|intros <- _|by intros <-].
    + rewrite (IH _ _ E') by done. done.
    + rewrite (IH _ _ E') by done. done.
  - by rewrite (Hfg _ _ E).
Qed.
Lemma show_value_mono F (f g : bool -> loc -> outcome bytes) : (forall go l y, f go l = y -> y <> NoFuel -> g go l = y) ->
  forall go v y, show_value F f go v = y -> y <> NoFuel -> show_value F g go v = y.
Proof.
  intros Hfg go v y. destruct v; simpl; try done. destruct (f go l) as [t| |] eqn:E; [..|by intros <-].
  - by rewrite (Hfg _ _ _ E).
  - by rewrite (Hfg _ _ _ E).
Qed.
Lemma show_mono F ord n m h go l y : (n <= m)%nat -> show F ord n h go l = y -> y <> NoFuel -> show F ord m h go l = y.
Proof.
  revert m go l y. induction n as [|n IH]; intros m go l y Hle; [by intros <-|]. destruct m as [|m]; [lia|]. cbn [show].
  assert (Hf : forall go l y, show F ord n h go l = y -> y <> NoFuel -> show F ord m h go l = y) by (intros; apply IH; [lia|done..]).
  destruct (h !! l) as [[mp|[d|]|xs|xs]|]; try done.
  - destruct (show_entries _ _) as [ts| |] eqn:E; [| |by intros <-];
      rewrite (show_entries_mono _ (show_value F (show F ord m h) go) _ _ (show_value_mono F _ _ Hf go) E); done.
  - apply Hf.
  - destruct (show_elements _ _ _) as [ts| |] eqn:E; [| |by intros <-];
      rewrite (show_elements_mono _ (show_value F (show F ord m h) false) _ _ _ (show_value_mono F _ _ Hf false) E); done.
  - destruct (show_elements _ _ _) as [ts| |] eqn:E; [| |by intros <-];
      rewrite (show_elements_mono _ (show_value F (show F ord m h) false) _ _ _ (show_value_mono F _ _ Hf false) E); done.
Qed.
Lemma sprint_mono F ord n m h v y : (n <= m)%nat -> sprint F ord n h v = y -> y <> NoFuel -> sprint F ord m h v = y.
Proof. intros Hle. apply show_value_mono. intros. by apply (show_mono _ _ n m). Qed.

(** Entries printed in two orders are permutations of each other; they fail alike. *)
Lemma show_entries_perm f l1 l2 : l1 ≡ₚ l2 -> (forall v, f v <> Panic) ->
  match show_entries f l1, show_entries f l2 with
  | Ok t1, Ok t2 => t1 ≡ₚ t2
  | NoFuel, NoFuel => True
  | _, _ => False
  end.
Proof.
  intros Hp Hf. assert (Hok : forall l, show_entries f l <> Panic).
  { induction l as [|[k v] l IH]; simpl; [done|]. destruct (f v) eqn:E; [|by destruct (Hf v)|done]. cbn [obind].
    by destruct (show_entries f l). }
  induction Hp as [|[k v] l1 l2 Hp IH|[k v] [k' v'] l|l1 l2 l3 _ IH1 _ IH2]; simpl.
  - done.
  - destruct (f v) eqn:E; cbn [obind]; [|by destruct (Hf v)|done].
    destruct (show_entries f l1), (show_entries f l2); cbn [obind]; try done. by rewrite IH.
  - destruct (f v) eqn:E, (f v') eqn:E'; cbn [obind]; try done; try (by destruct (Hf v)); try (by destruct (Hf v')).
    + destruct (show_entries f l) eqn:El; cbn [obind]; [|by destruct (Hok l)|done]. apply perm_swap.
  - destruct (show_entries f l1), (show_entries f l2), (show_entries f l3); try done. by etrans.
Qed.
Lemma show_value_no_panic F f go v : show_value F f go v <> Panic.
Proof. destruct v; simpl; try done. by destruct (f go l). Qed.
Lemma show_value_ext F f g go v : (forall go l, f go l = g go l) -> show_value F f go v = show_value F g go v.
Proof. intros H. destruct v; simpl; try done. by rewrite H. Qed.
Lemma show_entries_ext f g l : (forall v, f v = g v) -> show_entries f l = show_entries g l.
Proof. intros H. induction l as [|[k v] l IH]; simpl; [done|]. by rewrite H, IH. Qed.
Lemma show_elements_ext f g i xs : (forall v, f v = g v) -> show_elements f i xs = show_elements g i xs.
Proof. intros H. revert i. induction xs as [|x xs IH]; intros i; simpl; [done|]. by rewrite H, IH. Qed.
Lemma show_order F ord1 ord2 n h go l : order_ok ord1 -> order_ok ord2 -> show F ord1 n h go l = show F ord2 n h go l.
Proof.
  intros H1 H2. revert go l. induction n as [|n IH]; intros go l; [done|]. cbn [show].
  assert (Hv : forall go v, show_value F (show F ord1 n h) go v = show_value F (show F ord2 n h) go v) by (intros; by apply show_value_ext).
  destruct (h !! l) as [[m|[d|]|xs|xs]|]; try done.
  - rewrite (show_entries_ext _ (show_value F (show F ord2 n h) go)) by apply Hv.
    assert (Hp : ord1 h m ≡ₚ ord2 h m) by (etrans; [apply H1|symmetry; apply H2]).
    pose proof (show_entries_perm (show_value F (show F ord2 n h) go) _ _ Hp (show_value_no_panic F _ _)) as Hs.
    destruct (show_entries _ (ord1 h m)), (show_entries _ (ord2 h m)); try done. cbn [obind].
    by rewrite (sort_strings_perm _ _ Hs).
  - by rewrite (show_elements_ext _ (show_value F (show F ord2 n h) false)) by apply Hv.
  - by rewrite (show_elements_ext _ (show_value F (show F ord2 n h) false)) by apply Hv.
Qed.

Lemma get_string_returns F ord h l key x :
  returns (fun n => get_string F ord n h l key) x <->
  exists r, gets h l key r /\
    match r with
    | None => x = ([], false)
    | Some VNil => x = ([], true)
    | Some v => exists t, returns (fun n => sprint F ord n h v) t /\ x = (t, true)
    end.
Proof.
  split.
  - intros [n H]. apply on_dataset_ok in H as (t & m & Hi & H). destruct (dget n h t key) as [r| |] eqn:E; try done.
    cbn [obind] in H. exists r. split; [rewrite (inside_gets _ _ _ _ _ _ Hi); by exists n|].
    destruct r as [v|]; [|congruence].
    assert (Hs : v <> VNil -> exists t0, returns (fun n0 => sprint F ord n0 h v) t0 /\ x = (t0, true)).
    { intros Hne. assert (H' : (t0 <-! sprint F ord n h v; Ok (t0, true)) = Ok x) by (by destruct v).
      destruct (sprint F ord n h v) as [t0| |] eqn:Es; try done. injection H' as <-. exists t0. split; [by exists n|done]. }
    destruct v; try (apply Hs; done). congruence.
  - intros (r & Hg & Hx). destruct (gets_inside _ _ _ _ Hg) as (t & m & Hi). rewrite (inside_gets _ _ _ _ _ _ Hi) in Hg.
    destruct Hg as [n Hn]. destruct (on_dataset_inside (A := bytes * bool) _ _ _ _ Hi) as [N HN].
    assert (Hget : forall k, dget (n + N + k) h t key = Ok r) by (intros k; apply (dget_mono n); [lia|done..]).
    destruct r as [v|].
    + assert (Hv : v = VNil \/ v <> VNil) by (destruct v; (by left) || (by right)). destruct Hv as [->|Hne].
      * exists (n + N + 0)%nat. unfold get_string. rewrite HN, Hget by lia. by rewrite Hx.
      * assert (Hx' : exists t0, returns (fun n0 => sprint F ord n0 h v) t0 /\ x = (t0, true)) by (by destruct v).
        destruct Hx' as (t0 & [k Hk] & ->). exists (n + N + k)%nat. unfold get_string. rewrite HN, Hget by lia.
        assert (Hk' : sprint F ord (n + N + k) h v = Ok t0) by (apply (sprint_mono _ _ k); [lia|done..]).
        cbn [obind]. rewrite Hk'. by destruct v.
    + exists (n + N + 0)%nat. unfold get_string. rewrite HN, Hget by lia. by rewrite Hx.
Qed.

(** ** C23 *)
Lemma wrap64_id z : - 2 ^ 63 <= z <= 2 ^ 63 - 1 -> wrap64 z = z.
Proof. intros H. unfold wrap64. rewrite Z.mod_small; lia. Qed.
Lemma wrap64_high z : 2 ^ 63 <= z <= 2 ^ 64 - 1 -> wrap64 z = z - 2 ^ 64.
Proof. intros H. unfold wrap64. rewrite <-(Z.mod_unique (z + 2 ^ 63) (2 ^ 64) 1 (z - 2 ^ 63)); lia. Qed.
Lemma holds_bounds k z : holds k z -> - 2 ^ 63 <= z <= 2 ^ 64 - 1.
Proof. unfold holds, int_range. destruct k; simpl; lia. Qed.
Lemma get_int_conv F h l key v x : gets h l key (Some v) ->
  returns (fun n => get_int F n h l key) x <-> x = match int_of F v with Some z => (z, true) | None => (0, false) end.
Proof.
  intros Hg. unfold get_int. rewrite typed_returns. split.
  - intros (r & Hr & ->). by rewrite <-(gets_det _ _ _ _ _ Hg Hr).
  - intros ->. by exists (Some v).
Qed.
Lemma get_int_exact F h l key k z : gets h l key (Some (VInt k z)) -> holds k z ->
  returns (fun n => get_int F n h l key) (if bool_decide (z <= 2 ^ 63 - 1) then z else z - 2 ^ 64, true).
Proof.
  intros Hg Hk%holds_bounds. rewrite (get_int_conv _ _ _ _ _ _ Hg). simpl int_of. cbn iota beta.
  case_bool_decide; [by rewrite wrap64_id by lia|by rewrite wrap64_high by lia].
Qed.
(** Only uint and uint64 can exceed. *)
Lemma wraps_only_unsigned k z : holds k z -> ~ z <= 2 ^ 63 - 1 -> (k = KUint \/ k = KUint64) /\ z - 2 ^ 64 < 0.
Proof. unfold holds, int_range. destruct k; simpl; intros ? ?; try lia; (split; [auto|lia]). Qed.
Lemma get_int_bool F h l key b : gets h l key (Some (VBool b)) -> returns (fun n => get_int F n h l key) (if b then 1 else 0, true).
Proof. intros Hg. by rewrite (get_int_conv _ _ _ _ _ _ Hg). Qed.
Lemma get_int_float F h l key s m e z :
  gets h l key (Some (VFloat64 (S754_finite s m e))) \/ gets h l key (Some (VFloat32 (S754_finite s m e))) ->
  truncated (signed s m) e z -> - 2 ^ 63 <= z <= 2 ^ 63 - 1 -> returns (fun n => get_int F n h l key) (z, true).
Proof.
  intros [Hg|Hg] Ht Hr; rewrite (get_int_conv _ _ _ _ _ _ Hg); simpl int_of; cbn iota beta;
    by rewrite (int_of_float_trunc F s m e z Ht Hr).
Qed.
Lemma get_int_zero F h l key s : gets h l key (Some (VFloat64 (S754_zero s))) \/ gets h l key (Some (VFloat32 (S754_zero s))) ->
  returns (fun n => get_int F n h l key) (0, true).
Proof. intros [Hg|Hg]; by rewrite (get_int_conv _ _ _ _ _ _ Hg). Qed.
Lemma get_int_time F h l key t : gets h l key (Some (VTime t)) ->
  - 2 ^ 63 + 62135596800 <= t_sec t <= 2 ^ 63 - 1 ->
  returns (fun n => get_int F n h l key) (if bool_decide (t_sec t = 0 /\ t_nsec t = 0) then 0 else t_sec t - 62135596800, true).
Proof.
  intros Hg Ht. rewrite (get_int_conv _ _ _ _ _ _ Hg). simpl int_of. unfold is_zero_time, unix. cbn iota beta.
  by rewrite wrap64_id by lia.
Qed.
Definition numeric (v : value) : Prop :=
  match v with VBool _ | VInt _ _ | VFloat32 _ | VFloat64 _ | VTime _ => True | _ => False end.
Lemma get_int_other F h l key v : gets h l key (Some v) -> ~ numeric v -> returns (fun n => get_int F n h l key) (0, false).
Proof. intros Hg Hn. rewrite (get_int_conv _ _ _ _ _ _ Hg). by destruct v; try (by destruct Hn). Qed.

(** ** C24 *)
Lemma get_float_conv h l key v x : gets h l key (Some v) ->
  returns (fun n => get_float n h l key) x <-> x = match float_of v with Some f => (f, true) | None => (S754_zero false, false) end.
Proof.
  intros Hg. unfold get_float. rewrite typed_returns. split.
  - intros (r & Hr & ->). by rewrite <-(gets_det _ _ _ _ _ Hg Hr).
  - intros ->. by exists (Some v).
Qed.
Lemma get_float_exact h l key k z : gets h l key (Some (VInt k z)) -> Z.abs z <= 2 ^ 53 ->
  exists f, returns (fun n => get_float n h l key) (f, true) /\ valid_binary 53 1024 f = true /\ float_is f z 0.
Proof. intros Hg Hz. exists (float_of_int z). rewrite (get_float_conv _ _ _ _ _ Hg). split; [done|]. by apply float_exact. Qed.
Lemma get_float_nearest h l key k z : gets h l key (Some (VInt k z)) -> holds k z -> 2 ^ 53 < Z.abs z ->
  exists f y M n, returns (fun n => get_float n h l key) (f, true) /\ valid_binary 53 1024 f = true /\ float_is f y 0 /\
    y = M * 2 ^ n /\ 2 ^ 52 <= Z.abs M <= 2 ^ 53 /\ 0 < n /\ (2 * Z.abs (z - y) = 2 ^ n -> Z.even M = true) /\
    forall a b, Z.abs a < 2 ^ 53 ->
      (0 <= b -> Z.abs (z - y) <= Z.abs (z - a * 2 ^ b)) /\
      (b < 0 -> Z.abs (z - y) * 2 ^ (- b) <= Z.abs (z * 2 ^ (- b) - a)).
Proof.
  intros Hg Hk%holds_bounds Hz. destruct (float_nearest z) as (y & M & n & H).
  - split; [done|]. assert (2 ^ 64 < 2 ^ 1022) by (vm_compute; done). lia.
  - exists (float_of_int z), y, M, n. rewrite (get_float_conv _ _ _ _ _ Hg). split; [done|exact H].
Qed.
Lemma get_float_f32 h l key f : gets h l key (Some (VFloat32 f)) -> valid_binary 24 128 f = true ->
  exists f', returns (fun n => get_float n h l key) (f', true) /\ valid_binary 53 1024 f' = true /\
    match f with S754_finite s m e => float_is f' (signed s m) e | _ => f' = f end.
Proof. intros Hg Hv. exists (widen f). rewrite (get_float_conv _ _ _ _ _ Hg). split; [done|]. by apply widen_exact. Qed.
Lemma get_float_f64 h l key f : gets h l key (Some (VFloat64 f)) -> returns (fun n => get_float n h l key) (f, true).
Proof. intros Hg. by rewrite (get_float_conv _ _ _ _ _ Hg). Qed.
Lemma get_float_bool h l key b : gets h l key (Some (VBool b)) ->
  exists f, returns (fun n => get_float n h l key) (f, true) /\ valid_binary 53 1024 f = true /\ float_is f (if b then 1 else 0) 0.
Proof.
  intros Hg. exists (float_of_int (if b then 1 else 0)). rewrite (get_float_conv _ _ _ _ _ Hg). split; [done|].
  apply float_exact. destruct b; lia.
Qed.
Lemma get_float_time h l key t : gets h l key (Some (VTime t)) -> Z.abs (t_sec t - 62135596800) <= 2 ^ 53 ->
  exists f, returns (fun n => get_float n h l key) (f, true) /\ valid_binary 53 1024 f = true /\
    float_is f (if bool_decide (t_sec t = 0 /\ t_nsec t = 0) then 0 else t_sec t - 62135596800) 0.
Proof.
  intros Hg Ht. eexists. rewrite (get_float_conv _ _ _ _ _ Hg). simpl float_of. cbn iota beta. split; [done|].
  unfold is_zero_time, unix. case_bool_decide.
  - apply (float_exact 0). lia.
  - rewrite wrap64_id by lia. by apply float_exact.
Qed.
Lemma get_float_other h l key v : gets h l key (Some v) -> ~ numeric v -> returns (fun n => get_float n h l key) (S754_zero false, false).
Proof. intros Hg Hn. rewrite (get_float_conv _ _ _ _ _ Hg). by destruct v; try (by destruct Hn). Qed.

(** ** C25 *)
Inductive falsy : value -> Prop :=
| falsy_nil : falsy VNil
| falsy_bool : falsy (VBool false)
| falsy_int k : falsy (VInt k 0)
| falsy_f32 s : falsy (VFloat32 (S754_zero s))
| falsy_f64 s : falsy (VFloat64 (S754_zero s))
| falsy_time r : falsy (VTime (GoTime 0 0 r)).
Lemma bool_of_falsy v : bool_of v = false <-> falsy v.
Proof.
  split.
  - destruct v as [|[]|k z|[]|[]| |[s n r]| | | | | | |]; try done; simpl; try (by constructor).
    + case_bool_decide as H; [done|]. intros _. assert (z = 0) as -> by lia. constructor.
    + unfold is_zero_time; simpl. destruct (bool_decide_reflect (s = 0 /\ n = 0)) as [[-> ->]|]; [|done]. constructor.
  - destruct 1; done.
Qed.
Lemma get_bool_truth h l key v : gets h l key (Some v) ->
  exists b, returns (fun n => get_bool n h l key) (b, true) /\ (b = false <-> falsy v).
Proof.
  intros Hg. exists (bool_of v). split; [|apply bool_of_falsy]. unfold get_bool. rewrite typed_returns. by exists (Some v).
Qed.
Lemma get_bool_found h l key b ok : returns (fun n => get_bool n h l key) (b, ok) -> (ok = true <-> exists v, gets h l key (Some v)).
Proof.
  unfold get_bool. rewrite typed_returns. intros (r & Hg & H). destruct r as [v|].
  - injection H as -> ->. split; [intros _; by exists v|done].
  - injection H as -> ->. split; [done|]. intros [v Hv]. by pose proof (gets_det _ _ _ _ _ Hg Hv).
Qed.

(** ** C26 *)
Lemma typed_missing {A} h l key (conv : value -> option A) zero : gets h l key None ->
  returns (fun n => typed n h l key conv zero) (zero, false).
Proof. intros Hg. rewrite typed_returns. by exists None. Qed.
Lemma typed_found {A} h l key (conv : value -> option A) zero a :
  returns (fun n => typed n h l key conv zero) (a, true) <-> exists v, gets h l key (Some v) /\ conv v = Some a.
Proof.
  rewrite typed_returns. split.
  - intros (r & Hg & H). destruct r as [v|]; [|done]. destruct (conv v) as [a'|] eqn:E; [|done]. injection H as <-. eauto.
  - intros (v & Hg & H). exists (Some v). by rewrite H.
Qed.
Lemma typed_wrapper {A} h l d key (conv : value -> option A) zero x : h !! l = Some (OTs (Some d)) ->
  returns (fun n => typed n h l key conv zero) x <-> returns (fun n => typed n h d key conv zero) x.
Proof.
  intros Hl. rewrite !typed_returns.
  assert (Hw : forall r, gets h l key r <-> gets h d key r).
  { intros r. rewrite !gets_path. split; [|intros H; by eapply ap_wrap]. inversion 1; by simplify_eq. }
  split; intros (r & Hg & ->); exists r; (split; [by apply Hw|done]).
Qed.
Lemma gets_wrapper h l d key r : h !! l = Some (OTs (Some d)) -> gets h l key r <-> gets h d key r.
Proof.
  intros Hl. rewrite !gets_path. split; [|intros H; by eapply ap_wrap]. inversion 1; by simplify_eq.
Qed.
Lemma get_string_wrapper F ord h l d key x : h !! l = Some (OTs (Some d)) ->
  returns (fun n => get_string F ord n h l key) x <-> returns (fun n => get_string F ord n h d key) x.
Proof.
  intros Hl. rewrite !get_string_returns.
  split; intros (r & Hg & H); exists r; (split; [by apply (gets_wrapper _ _ _ _ _ Hl)|done]).
Qed.
