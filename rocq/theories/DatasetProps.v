(** * Property theorems about datasets and collections (C20-C35, C71, C75). *)
From Coq Require Import SpecFloat.
From Verif Require Import GoBase GoStrings LangModel LangProofs DatasetModel DatasetSpec
  DatasetProofs DatasetProofs2 DatasetProofs3 DatasetProofs4 DatasetProofs5 DatasetProofs6.
Local Open Scope Z_scope.

(** ** C20 *)
Theorem C20_paths : forall h l s segs r, Forall (fun w => ">"%char ∉ w) (s :: segs) ->
  (exists n, dget n h l (s ++ concat (map (cons ">"%char) segs)) = Ok r) <-> at_path h l (s :: segs) r.
Proof. exact get_segments. Qed.
Print Assumptions C20_paths.
Theorem C20_every_key : forall key : bytes, exists s segs,
  Forall (fun w => ">"%char ∉ w) (s :: segs) /\ key = s ++ concat (map (cons ">"%char) segs).
Proof. exact every_key_has_segments. Qed.
Print Assumptions C20_every_key.
Theorem C20_total : forall h l key, wf h -> dataset_at h l -> exists n r, forall n', (n <= n')%nat -> dget n' h l key = Ok r.
Proof. exact get_total. Qed.
Print Assumptions C20_total.
Theorem C20_no_panic : forall n h l key, wf h -> dataset_at h l -> dget n h l key <> Panic.
Proof. exact get_no_panic. Qed.
Print Assumptions C20_no_panic.
(** Dataset 1 has a sub-dataset 2 behind the wrapper 3, a collection 4 and refers to itself. *)
Definition C20_heap : heap :=
  <[1%positive := ODs (<[B "sub" := VRef 3]> (<[B "list" := VRef 4]> (<[B "self" := VRef 1]>
     (<[B "x" := VInt KInt 7]> (<[B "x>y" := VStr (B "literal")]> ∅)))))]>
  (<[2%positive := ODs (<[B "a" := VBool true]> ∅)]> (<[3%positive := OTs (Some 2%positive)]>
  (<[4%positive := OColl [Some 2%positive; None; Some 1%positive]]> ∅))).
Example C20_case :
  map (fun k => dget 20 C20_heap 1 (B k))
    ["sub>a"; "self>self>sub>a"; "list>0>a"; "list>2>x"; "list>1>a"; "list>3"; "list>+0"; "list>00>a"; "list>-0>a"; "list>x"; "x>y"; "x>z"; "sub>b"; "nope>a"]%string
  = [Ok (Some (VBool true)); Ok (Some (VBool true)); Ok (Some (VBool true)); Ok (Some (VInt KInt 7)); Ok None; Ok None; Ok (Some (VRef 2));
     Ok (Some (VBool true)); Ok (Some (VBool true)); Ok None; Ok (Some (VStr (B "literal"))); Ok None; Ok None; Ok None].
Proof. by vm_compute. Qed.

(** ** C21 *)
Theorem C21_set_get : forall n h l k v h', dset n h l k v = Ok h' -> gt ∉ k -> gets h' l k (Some v).
Proof. exact set_get. Qed.
Print Assumptions C21_set_get.
Theorem C21_del_get : forall n h l k h', ddel n h l k = Ok h' -> gt ∉ k -> gets h' l k None.
Proof. exact del_get. Qed.
Print Assumptions C21_del_get.
Theorem C21_set_other : forall n h l k v h' x k' r, dset n h l k v = Ok h' -> k' <> k -> gt ∉ k' -> gets h' x k' r <-> gets h x k' r.
Proof. exact set_other. Qed.
Print Assumptions C21_set_other.
Theorem C21_del_other : forall n h l k h' x k' r, ddel n h l k = Ok h' -> k' <> k -> gt ∉ k' -> gets h' x k' r <-> gets h x k' r.
Proof. exact del_other. Qed.
Print Assumptions C21_del_other.
Theorem C21_last_set_wins : forall n n' h l k v w h1 h2,
  dset n h l k v = Ok h1 -> dset n' h1 l k w = Ok h2 -> returns (fun n => dset n h l k w) h2.
Proof. exact set_twice. Qed.
Print Assumptions C21_last_set_wins.
Theorem C21_del_twice : forall n n' h l k h1 h2, ddel n h l k = Ok h1 -> ddel n' h1 l k = Ok h2 -> h2 = h1.
Proof. exact del_twice. Qed.
Print Assumptions C21_del_twice.
Theorem C21_defined : forall h l k v, wf h -> dataset_at h l ->
  (exists h', returns (fun n => dset n h l k v) h') /\ (exists h', returns (fun n => ddel n h l k) h').
Proof. exact (fun h l k v Hw Hl => conj (set_defined h l k v Hw Hl) (del_defined h l k Hw Hl)). Qed.
Print Assumptions C21_defined.
Example C21_case :
  (h1 <-! dset 5 C20_heap 3 (B "b") (VInt KInt 1); h2 <-! ddel 5 h1 2 (B "a");
   r1 <-! dget 5 h2 3 (B "b"); r2 <-! dget 5 h2 1 (B "sub>a"); Ok (r1, r2)) = Ok (Some (VInt KInt 1), None).
Proof. by vm_compute. Qed.

(** ** C22 *)
Theorem C22_exact_answer : forall n h l k v h', dset n h l k v = Ok h' -> gt ∈ k ->
  forall r, gets h' l k r <->
    ((exists w, gets h l (hd [] (split_on gt k)) (Some w) /\ plain h w) /\ r = Some v) \/
    ((~ exists w, gets h l (hd [] (split_on gt k)) (Some w) /\ plain h w) /\ gets h l k r).
Proof. exact set_get_special. Qed.
Print Assumptions C22_exact_answer.
Theorem C22_stored_not_read_refuted : forall n h l k v h',
  dset n h l k v = Ok h' -> gt ∈ k -> gets h l (hd [] (split_on gt k)) None -> gets h' l k None.
Proof. exact set_get_lost. Qed.
Print Assumptions C22_stored_not_read_refuted.
Example C22_case :
  (h1 <-! dset 5 C20_heap 1 (B "a>b") (VInt KInt 1); dget 5 h1 1 (B "a>b")) = Ok None /\
  (h1 <-! dset 5 C20_heap 1 (B "x>b") (VInt KInt 1); dget 5 h1 1 (B "x>b")) = Ok (Some (VInt KInt 1)) /\
  (h1 <-! dset 5 C20_heap 1 (B "sub>a") (VInt KInt 1); dget 5 h1 1 (B "sub>a")) = Ok (Some (VBool true)).
Proof. by vm_compute. Qed.

(** ** C23 *)
Theorem C23_integers : forall F h l key k z, gets h l key (Some (VInt k z)) -> holds k z ->
  returns (fun n => get_int F n h l key) (if bool_decide (z <= 2 ^ 63 - 1) then z else z - 2 ^ 64, true).
Proof. exact get_int_exact. Qed.
Print Assumptions C23_integers.
Theorem C23_wraps_only_unsigned : forall k z, holds k z -> ~ z <= 2 ^ 63 - 1 -> (k = KUint \/ k = KUint64) /\ z - 2 ^ 64 < 0.
Proof. exact wraps_only_unsigned. Qed.
Print Assumptions C23_wraps_only_unsigned.
Theorem C23_bool : forall F h l key b, gets h l key (Some (VBool b)) -> returns (fun n => get_int F n h l key) (if b then 1 else 0, true).
Proof. exact get_int_bool. Qed.
Print Assumptions C23_bool.
Theorem C23_float : forall F h l key s m e z,
  gets h l key (Some (VFloat64 (S754_finite s m e))) \/ gets h l key (Some (VFloat32 (S754_finite s m e))) ->
  truncated (signed s m) e z -> - 2 ^ 63 <= z <= 2 ^ 63 - 1 -> returns (fun n => get_int F n h l key) (z, true).
Proof. exact get_int_float. Qed.
Print Assumptions C23_float.
Theorem C23_zero : forall F h l key s, gets h l key (Some (VFloat64 (S754_zero s))) \/ gets h l key (Some (VFloat32 (S754_zero s))) ->
  returns (fun n => get_int F n h l key) (0, true).
Proof. exact get_int_zero. Qed.
Print Assumptions C23_zero.
Theorem C23_time : forall F h l key t, gets h l key (Some (VTime t)) -> - 2 ^ 63 + 62135596800 <= t_sec t <= 2 ^ 63 - 1 ->
  returns (fun n => get_int F n h l key) (if bool_decide (t_sec t = 0 /\ t_nsec t = 0) then 0 else t_sec t - 62135596800, true).
Proof. exact get_int_time. Qed.
Print Assumptions C23_time.
Theorem C23_other : forall F h l key v, gets h l key (Some v) -> ~ numeric v -> returns (fun n => get_int F n h l key) (0, false).
Proof. exact get_int_other. Qed.
Print Assumptions C23_other.
Definition no_lib : golib := GoLib (fun _ => []) (fun _ => []) (fun _ => []) (fun _ => []) (fun _ => []) (fun _ => 0).
Definition one (v : value) : heap := <[1%positive := ODs (<[B "k" := v]> ∅)]> ∅.
Example C23_case :
  map (fun v => get_int no_lib 3 (one v) 1 (B "k"))
    [VInt KInt8 (-5); VInt KUint64 (2 ^ 64 - 1); VBool true; VFloat64 (S754_finite true 11 (-2)); VTime (GoTime 0 0 3); VStr (B "5")]
  = [Ok (-5, true); Ok (-1, true); Ok (1, true); Ok (-2, true); Ok (0, true); Ok (0, false)].
Proof. by vm_compute. Qed.

(** ** C24 *)
Theorem C24_exact : forall h l key k z, gets h l key (Some (VInt k z)) -> Z.abs z <= 2 ^ 53 ->
  exists f, returns (fun n => get_float n h l key) (f, true) /\ valid_binary 53 1024 f = true /\ float_is f z 0.
Proof. exact get_float_exact. Qed.
Print Assumptions C24_exact.
Theorem C24_nearest : forall h l key k z, gets h l key (Some (VInt k z)) -> holds k z -> 2 ^ 53 < Z.abs z ->
  exists f y M n, returns (fun n => get_float n h l key) (f, true) /\ valid_binary 53 1024 f = true /\ float_is f y 0 /\
    y = M * 2 ^ n /\ 2 ^ 52 <= Z.abs M <= 2 ^ 53 /\ 0 < n /\ (2 * Z.abs (z - y) = 2 ^ n -> Z.even M = true) /\
    forall a b, Z.abs a < 2 ^ 53 ->
      (0 <= b -> Z.abs (z - y) <= Z.abs (z - a * 2 ^ b)) /\
      (b < 0 -> Z.abs (z - y) * 2 ^ (- b) <= Z.abs (z * 2 ^ (- b) - a)).
Proof. exact get_float_nearest. Qed.
Print Assumptions C24_nearest.
Theorem C24_float32 : forall h l key f, gets h l key (Some (VFloat32 f)) -> valid_binary 24 128 f = true ->
  exists f', returns (fun n => get_float n h l key) (f', true) /\ valid_binary 53 1024 f' = true /\
    match f with S754_finite s m e => float_is f' (signed s m) e | _ => f' = f end.
Proof. exact get_float_f32. Qed.
Print Assumptions C24_float32.
Theorem C24_float64 : forall h l key f, gets h l key (Some (VFloat64 f)) -> returns (fun n => get_float n h l key) (f, true).
Proof. exact get_float_f64. Qed.
Print Assumptions C24_float64.
Theorem C24_bool : forall h l key b, gets h l key (Some (VBool b)) ->
  exists f, returns (fun n => get_float n h l key) (f, true) /\ valid_binary 53 1024 f = true /\ float_is f (if b then 1 else 0) 0.
Proof. exact get_float_bool. Qed.
Print Assumptions C24_bool.
Theorem C24_time : forall h l key t, gets h l key (Some (VTime t)) -> Z.abs (t_sec t - 62135596800) <= 2 ^ 53 ->
  exists f, returns (fun n => get_float n h l key) (f, true) /\ valid_binary 53 1024 f = true /\
    float_is f (if bool_decide (t_sec t = 0 /\ t_nsec t = 0) then 0 else t_sec t - 62135596800) 0.
Proof. exact get_float_time. Qed.
Print Assumptions C24_time.
Theorem C24_other : forall h l key v, gets h l key (Some v) -> ~ numeric v -> returns (fun n => get_float n h l key) (S754_zero false, false).
Proof. exact get_float_other. Qed.
Print Assumptions C24_other.
Example C24_case :
  get_float 3 (one (VInt KInt64 (2 ^ 53 - 1))) 1 (B "k") = Ok (S754_finite false 9007199254740991 0, true) /\
  get_float 3 (one (VInt KInt64 (2 ^ 53 + 1))) 1 (B "k") = Ok (S754_finite false 4503599627370496 1, true) /\
  get_float 3 (one (VFloat32 (S754_finite true 12582912 (-23)))) 1 (B "k") = Ok (S754_finite true 6755399441055744 (-52), true).
Proof. by vm_compute. Qed.

(** ** C25 *)
Theorem C25_truth : forall h l key v, gets h l key (Some v) ->
  exists b, returns (fun n => get_bool n h l key) (b, true) /\ (b = false <-> falsy v).
Proof. exact get_bool_truth. Qed.
Print Assumptions C25_truth.
Theorem C25_found : forall h l key b ok, returns (fun n => get_bool n h l key) (b, ok) -> (ok = true <-> exists v, gets h l key (Some v)).
Proof. exact get_bool_found. Qed.
Print Assumptions C25_found.
Example C25_case :
  map (fun v => get_bool 3 (one v) 1 (B "k"))
    [VInt KUint8 0; VFloat64 (S754_zero true); VTime (GoTime 0 0 9); VNil; VStr []; VFloat32 S754_nan; VInts []; VInt KInt (-1)]
  = [Ok (false, true); Ok (false, true); Ok (false, true); Ok (false, true); Ok (true, true); Ok (true, true); Ok (true, true); Ok (true, true)].
Proof. by vm_compute. Qed.

(** ** C26 *)
Theorem C26_missing : forall F ord h l key, gets h l key None ->
  returns (fun n => get_dataset n h l key) (None, false) /\ returns (fun n => get_collection n h l key) (None, false) /\
  returns (fun n => get_string F ord n h l key) ([], false) /\ returns (fun n => get_bool n h l key) (false, false) /\
  returns (fun n => get_int F n h l key) (0, false) /\ returns (fun n => get_float n h l key) (S754_zero false, false) /\
  returns (fun n => get_time n h l key) (GoTime 0 0 0, false) /\ returns (fun n => get_strings n h l key) ([], false) /\
  returns (fun n => get_bools n h l key) ([], false) /\ returns (fun n => get_ints n h l key) ([], false) /\
  returns (fun n => get_floats n h l key) ([], false) /\ returns (fun n => get_times n h l key) ([], false).
Proof. exact getters_missing. Qed.
Print Assumptions C26_missing.
Theorem C26_only_if_found : forall F ord h l key,
  (forall x, returns (fun n => get_dataset n h l key) (x, true) -> exists v, gets h l key (Some v)) /\
  (forall x, returns (fun n => get_collection n h l key) (x, true) -> exists v, gets h l key (Some v)) /\
  (forall x, returns (fun n => get_string F ord n h l key) (x, true) -> exists v, gets h l key (Some v)) /\
  (forall x, returns (fun n => get_bool n h l key) (x, true) -> exists v, gets h l key (Some v)) /\
  (forall x, returns (fun n => get_int F n h l key) (x, true) -> exists v, gets h l key (Some v)) /\
  (forall x, returns (fun n => get_float n h l key) (x, true) -> exists v, gets h l key (Some v)).
Proof. exact getters_found. Qed.
Print Assumptions C26_only_if_found.
Theorem C26_dataset : forall h l key d,
  returns (fun n => get_dataset n h l key) (d, true) <-> exists x, d = Some x /\ gets h l key (Some (VRef x)) /\ dataset_at h x.
Proof. exact get_dataset_found. Qed.
Print Assumptions C26_dataset.
Theorem C26_collection : forall h l key c,
  returns (fun n => get_collection n h l key) (c, true) <-> exists x xs, c = Some x /\ gets h l key (Some (VRef x)) /\ collection_at h x xs.
Proof. exact get_collection_found. Qed.
Print Assumptions C26_collection.
Theorem C26_time : forall h l key t, returns (fun n => get_time n h l key) (t, true) <-> gets h l key (Some (VTime t)).
Proof. exact get_time_found. Qed.
Print Assumptions C26_time.
Theorem C26_slices : forall h l key,
  (forall x, returns (fun n => get_strings n h l key) (x, true) <-> gets h l key (Some (VStrs x))) /\
  (forall x, returns (fun n => get_bools n h l key) (x, true) <-> gets h l key (Some (VBools x))) /\
  (forall x, returns (fun n => get_ints n h l key) (x, true) <-> gets h l key (Some (VInts x))) /\
  (forall x, returns (fun n => get_floats n h l key) (x, true) <-> gets h l key (Some (VFloats x))) /\
  (forall x, returns (fun n => get_times n h l key) (x, true) <-> gets h l key (Some (VTimes x))).
Proof. exact get_slices_found. Qed.
Print Assumptions C26_slices.
Theorem C26_string : forall F ord h l key t,
  returns (fun n => get_string F ord n h l key) (t, true) <->
  exists v, gets h l key (Some v) /\ (v = VNil /\ t = [] \/ v <> VNil /\ returns (fun n => sprint F ord n h v) t).
Proof. exact get_string_found. Qed.
Print Assumptions C26_string.
Theorem C26_wrapper : forall F ord h l d key, h !! l = Some (OTs (Some d)) ->
  (forall x, gets h l key x <-> gets h d key x) /\
  (forall x, returns (fun n => get_dataset n h l key) x <-> returns (fun n => get_dataset n h d key) x) /\
  (forall x, returns (fun n => get_collection n h l key) x <-> returns (fun n => get_collection n h d key) x) /\
  (forall x, returns (fun n => get_string F ord n h l key) x <-> returns (fun n => get_string F ord n h d key) x) /\
  (forall x, returns (fun n => get_bool n h l key) x <-> returns (fun n => get_bool n h d key) x) /\
  (forall x, returns (fun n => get_int F n h l key) x <-> returns (fun n => get_int F n h d key) x) /\
  (forall x, returns (fun n => get_float n h l key) x <-> returns (fun n => get_float n h d key) x) /\
  (forall x, returns (fun n => get_time n h l key) x <-> returns (fun n => get_time n h d key) x) /\
  (forall x, returns (fun n => get_strings n h l key) x <-> returns (fun n => get_strings n h d key) x) /\
  (forall x, returns (fun n => get_bools n h l key) x <-> returns (fun n => get_bools n h d key) x) /\
  (forall x, returns (fun n => get_ints n h l key) x <-> returns (fun n => get_ints n h d key) x) /\
  (forall x, returns (fun n => get_floats n h l key) x <-> returns (fun n => get_floats n h d key) x) /\
  (forall x, returns (fun n => get_times n h l key) x <-> returns (fun n => get_times n h d key) x).
Proof. exact getters_wrapper. Qed.
Print Assumptions C26_wrapper.
Theorem C26_wrapper_writes : forall h l d key v, h !! l = Some (OTs (Some d)) ->
  (forall h', returns (fun n => dset n h l key v) h' <-> returns (fun n => dset n h d key v) h') /\
  (forall h', returns (fun n => ddel n h l key) h' <-> returns (fun n => ddel n h d key) h').
Proof. exact writes_wrapper. Qed.
Print Assumptions C26_wrapper_writes.
Definition some_order (_ : heap) (m : gmap bytes value) : list (bytes * value) := map_to_list m.
Example C26_case :
  get_dataset 5 C20_heap 1 (B "sub") = Ok (Some 3%positive, true) /\ get_dataset 5 C20_heap 1 (B "list") = Ok (None, false) /\
  get_collection 5 C20_heap 1 (B "self>list") = Ok (Some 4%positive, true) /\
  get_string no_lib some_order 5 C20_heap 3 (B "a") = Ok (B "true", true) /\
  get_string no_lib some_order 5 C20_heap 1 (B "sub") = Ok (B "xcore.XDataset{a:true}", true) /\
  get_ints 5 C20_heap 1 (B "x") = Ok ([], false).
Proof. by vm_compute. Qed.

(** ** C27 *)
Theorem C27_terminates : forall ord h l, order_ok ord -> acyclic h l -> complete h l ->
  exists n h' l', (forall n', (n <= n')%nat -> exists h'' l'', clone ord n' h l = Ok (h'', l'')) /\ clone ord n h l = Ok (h', l').
Proof. exact clone_copies. Qed.
Print Assumptions C27_terminates.
Theorem C27_deep_copy : forall ord n h l h' l', order_ok ord -> complete h l -> clone ord n h l = Ok (h', l') ->
  (forall x o, h !! x = Some o -> h' !! x = Some o) /\ (forall x, reach h' l' x -> h !! x = None /\ is_Some (h' !! x)) /\
  copy h h' l l' /\
  (forall key r, gets h l key r -> exists r', gets h' l' key r' /\ copy_answer h h' r r') /\
  (forall key r', gets h' l' key r' -> exists r, gets h l key r /\ copy_answer h h' r r').
Proof. exact clone_deep. Qed.
Print Assumptions C27_deep_copy.
(** A dataset with a wrapped sub-dataset shared with a collection. *)
Definition C27_heap : heap :=
  <[1%positive := ODs (<[B "sub" := VRef 3]> (<[B "list" := VRef 4]> (<[B "x" := VInt KInt 7]> ∅)))]>
  (<[2%positive := ODs (<[B "a" := VBool true]> ∅)]> (<[3%positive := OTs (Some 2%positive)]>
  (<[4%positive := OColl [Some 2%positive; Some 3%positive]]> ∅))).
Example C27_case :
  order_ok some_order /\
  match clone some_order 6 C27_heap 1 with
  | Ok (h', l') =>
      C27_heap !! l' = None /\
      map (fun k => dget 9 h' l' (B k)) ["x"; "sub>a"; "list>0>a"; "list>1>a"; "list>2"]%string
      = [Ok (Some (VInt KInt 7)); Ok (Some (VBool true)); Ok (Some (VBool true)); Ok (Some (VBool true)); Ok None] /\
      (exists d, dget 9 h' l' (B "sub") = Ok (Some (VRef d)) /\ C27_heap !! d = None)
  | _ => False
  end.
Proof. split; [by intros ? ?|]. vm_compute. split_and!; try done. eexists. split; done. Qed.

(** ** C28 *)
Theorem C28_clone_independent : forall ord n h l h' l' us n' h'', order_ok ord -> complete h l -> clone ord n h l = Ok (h', l') ->
  Forall (fun u => reach h l (mutated u)) us -> run_mutations n' h' us = Ok h'' ->
  forall x, reach h' l' x -> h'' !! x = h' !! x /\ forall key r, gets h'' x key r <-> gets h' x key r.
Proof. exact clone_independent. Qed.
Print Assumptions C28_clone_independent.
Theorem C28_original_independent : forall ord n h l h' l' us n' h'', order_ok ord -> complete h l -> clone ord n h l = Ok (h', l') ->
  Forall (fun u => reach h' l' (mutated u)) us -> run_mutations n' h' us = Ok h'' ->
  forall x, reach h l x -> h'' !! x = h !! x /\ forall key r, gets h'' x key r <-> gets h x key r.
Proof. exact original_independent. Qed.
Print Assumptions C28_original_independent.
Example C28_case :
  match clone some_order 6 C27_heap 1 with
  | Ok (h', l') =>
      match run_mutations 5 h' [MSet 3 (B "a") (VInt KInt 0); MShift 4; MDel 1 (B "x"); MPush 4 (Some 1%positive)] with
      | Ok h'' =>
          map (fun k => dget 9 h'' l' (B k)) ["x"; "sub>a"; "list>0>a"; "list>2"]%string
          = [Ok (Some (VInt KInt 7)); Ok (Some (VBool true)); Ok (Some (VBool true)); Ok None] /\
          map (fun k => dget 9 h'' 1 (B k)) ["x"; "sub>a"; "list>0>a"; "list>1>sub>a"]%string
          = [Ok None; Ok (Some (VInt KInt 0)); Ok (Some (VInt KInt 0)); Ok (Some (VInt KInt 0))]
      | _ => False
      end
  | _ => False
  end.
Proof. vm_compute. done. Qed.

(** ** C29 *)
Theorem C29_never_returns_refuted : forall ord h l x, order_ok ord -> complete h l -> reach h l x -> tc (child h) x x ->
  forall n, clone ord n h l = NoFuel.
Proof. exact clone_diverges. Qed.
Print Assumptions C29_never_returns_refuted.
Definition C29_heap : heap := <[1%positive := ODs (<[B "sub" := VRef 2]> ∅)]> (<[2%positive := ODs (<[B "up" := VRef 1]> ∅)]> ∅).
Example C29_case : complete C29_heap 1%positive /\ tc (child C29_heap) 1%positive 1%positive /\ dget 9 C29_heap 1 (B "sub>up>sub>nope") = Ok None.
Proof.
  assert (H12 : child C29_heap 1%positive 2%positive) by (eapply (child_ds _ _ _ (B "sub")); by vm_compute).
  assert (H21 : child C29_heap 2%positive 1%positive) by (eapply (child_ds _ _ _ (B "up")); by vm_compute).
  split_and!; [|eapply tc_l; [done|by apply tc_once]|by vm_compute].
  intros x Hx. assert (x = 1%positive \/ x = 2%positive) as Hc.
  { revert x Hx. apply (rtc_ind_r (fun x => x = 1%positive \/ x = 2%positive)); [by left|]. intros y z _ Hyz [->| ->].
    - right. inversion Hyz as [? m k ? E1 E2|? ? E1|? xs ? [E1|E1] _]; subst; unfold C29_heap in E1; rewrite lookup_insert in E1; try done. injection E1 as <-.
      apply lookup_insert_Some in E2 as [[_ [= <-]]|[_ E2]]; [done|]. by rewrite lookup_empty in E2.
    - left. inversion Hyz as [? m k ? E1 E2|? ? E1|? xs ? [E1|E1] _]; subst; unfold C29_heap in E1; rewrite lookup_insert_ne, lookup_insert in E1 by done; try done. injection E1 as <-.
      apply lookup_insert_Some in E2 as [[_ [= <-]]|[_ E2]]; [done|]. by rewrite lookup_empty in E2. }
  destruct Hc as [->| ->]; (split_and!; [by eexists|done|]); intros xs [E|E]; done.
Qed.

(** ** C30 *)
Theorem C30_represents : forall h m h' d, go_value (GMap m) -> new_dataset h m = (h', d) ->
  (forall x o, h !! x = Some o -> h' !! x = Some o) /\ represents (fun x => h !! x = None) h' (GMap m) (VRef d).
Proof. exact new_dataset_represents. Qed.
Print Assumptions C30_represents.
Theorem C30_paths : forall h m h' d s segs g, go_value (GMap m) -> new_dataset h m = (h', d) ->
  Forall (fun w => ">"%char ∉ w) (s :: segs) -> source_path m (s :: segs) g ->
  exists r, gets h' d (s ++ concat (map (cons ">"%char) segs)) r /\ represents_answer (fun x => h !! x = None) h' g r.
Proof. exact new_dataset_paths. Qed.
Print Assumptions C30_paths.
Theorem C30_collection : forall h l h' c, (forall m, m ∈ l -> go_value (GMap m)) -> new_collection h l = (h', c) ->
  (forall x o, h !! x = Some o -> h' !! x = Some o) /\ represents (fun x => h !! x = None) h' (GMaps l) (VRef c).
Proof. exact new_collection_represents. Qed.
Print Assumptions C30_collection.
Definition C30_source : list (bytes * gval) :=
  [(B "a", GLeaf (VInt KInt 1)); (B "m", GMap [(B "x", GLeaf (VStr (B "v"))); (B "y", GMap [])]);
   (B "l", GMaps [[(B "i", GLeaf (VInt KInt 10))]; [(B "i", GLeaf (VInt KInt 11)); (B "m", GMap [(B "z", GLeaf VNil)])]]);
   (B "any", GList [GLeaf (VInt KInt 5); GMap [(B "i", GLeaf (VInt KInt 20))]; GList []; GMap [(B "i", GLeaf (VInt KInt 21))]])].
Example C30_case :
  let '(h', d) := new_dataset ∅ C30_source in
  map (fun k => dget 9 h' d (B k)) ["a"; "m>x"; "l>0>i"; "l>1>i"; "l>1>m>z"; "l>2"; "m>nope"; "any>0>i"; "any>1>i"; "any>2"]%string
  = [Ok (Some (VInt KInt 1)); Ok (Some (VStr (B "v"))); Ok (Some (VInt KInt 10)); Ok (Some (VInt KInt 11)); Ok (Some VNil); Ok None; Ok None;
     Ok (Some (VInt KInt 20)); Ok (Some (VInt KInt 21)); Ok None].
Proof. by vm_compute. Qed.
Example C30_case_path : source_path C30_source [B "l"; B "1"; B "m"; B "z"] (Some (GLeaf VNil)).
Proof.
  eapply (sp_maps _ _ _ _ 1).
  - constructor. do 2 right. left.
  - apply (den_plain [1]); [|done]. split; [done|]. repeat constructor; lia.
  - done.
  - eapply sp_map; [constructor; right; left|]. apply sp_last. constructor. by left.
Qed.

(** ** C31 *)
Theorem C31_index_mapping : forall h m h' d k gs, go_value (GMap m) -> new_dataset h m = (h', d) -> ">"%char ∉ k -> (k, GList gs) ∈ m ->
  exists c ds, gets h' d k (Some (VRef c)) /\ collection_at h' c (map Some ds) /\ length ds = count_maps gs /\
    (forall i x, ds !! i = Some x -> exists m', nth_map gs i m' /\ represents (fun x => h !! x = None) h' (GMap m') (VRef x)) /\
    (forall j m', gs !! j = Some (GMap m') -> exists x, ds !! count_maps (take j gs) = Some x /\
       represents (fun x => h !! x = None) h' (GMap m') (VRef x)).
Proof. exact new_dataset_array. Qed.
Print Assumptions C31_index_mapping.
Theorem C31_scalars_dropped_refuted : forall h m h' d k gs, go_value (GMap m) -> new_dataset h m = (h', d) -> ">"%char ∉ k -> (k, GList gs) ∈ m ->
  (forall m', GMap m' ∉ gs) -> exists c, gets h' d k (Some (VRef c)) /\ collection_at h' c [].
Proof. exact new_dataset_scalars. Qed.
Print Assumptions C31_scalars_dropped_refuted.
Example C31_case :
  (let '(h', d) := new_dataset ∅ [(B "l", GList [GLeaf (VInt KInt 1); GMap [(B "i", GLeaf VNil)]])] in
   (dget 9 h' d (B "l>0>i"), dget 9 h' d (B "l>1>i"))) = (Ok (Some VNil), Ok None) /\
  (let '(h', d) := new_dataset ∅ [(B "l", GList [GLeaf (VInt KInt 1); GList [GMap []]])] in
   c <-! dget 9 h' d (B "l"); match c with Some (VRef c) => ccount h' c | _ => Panic end) = Ok 0.
Proof. by vm_compute. Qed.

(** ** C32 *)
Theorem C32_dataset : forall F ord1 ord2 n h go l, order_ok ord1 -> order_ok ord2 -> show F ord1 n h go l = show F ord2 n h go l.
Proof. exact show_order. Qed.
Print Assumptions C32_dataset.
Theorem C32_language_xml : forall l o1 o2, o1 ≡ₚ o2 -> get_xml l o1 = get_xml l o2.
Proof. exact get_xml_order. Qed.
Print Assumptions C32_language_xml.
Theorem C32_language_string : forall o1 o2, o1 ≡ₚ o2 -> lstring o1 = lstring o2.
Proof. exact lstring_order. Qed.
Print Assumptions C32_language_string.
Theorem C32_language_gostring : forall quote o1 o2, o1 ≡ₚ o2 -> lgostring quote o1 = lgostring quote o2.
Proof. exact lgostring_order. Qed.
Print Assumptions C32_language_gostring.
Definition backwards (_ : heap) (m : gmap bytes value) : list (bytes * value) := reverse (map_to_list m).
Example C32_case :
  order_ok backwards /\ some_order C27_heap (<[B "a" := VNil]> (<[B "b" := VNil]> ∅)) <> backwards C27_heap (<[B "a" := VNil]> (<[B "b" := VNil]> ∅)) /\
  show no_lib some_order 9 C27_heap false 1 = show no_lib backwards 9 C27_heap false 1 /\
  show no_lib some_order 9 C27_heap false 1 =
    Ok (B "xcore.XDataset{list:XDatasetCollection[0:xcore.XDataset{a:true} 1:xcore.XDataset{a:true} ] sub:xcore.XDataset{a:true} x:7}").
Proof. split; [intros ? ?; apply reverse_Permutation|]. by vm_compute. Qed.

(** ** C33 *)
Theorem C33_deque : forall h c xs os, collection_at h c xs ->
  (exists ys as_ h', deque_run xs os ys as_ /\ crun h c os = Ok (h', as_) /\ now_contains h c ys h') \/
  (exists os1 o os2 as_, os = os1 ++ o :: os2 /\ (o = DPop \/ o = DShift) /\ deque_run xs os1 [] as_ /\ crun h c os = Panic).
Proof. exact crun_spec. Qed.
Print Assumptions C33_deque.
Theorem C33_panic_exactly_when_empty : forall h c xs o, collection_at h c xs ->
  (exists ys a h', deque_step xs o ys a /\ cstep h c o = Ok (h', a) /\ now_contains h c ys h') \/
  (xs = [] /\ (o = DPop \/ o = DShift) /\ cstep h c o = Panic).
Proof. exact cstep_spec. Qed.
Print Assumptions C33_panic_exactly_when_empty.
Theorem C33_deterministic : forall xs o ys a ys' a', deque_step xs o ys a -> deque_step xs o ys' a' -> ys = ys' /\ a = a'.
Proof. exact deque_step_det. Qed.
Print Assumptions C33_deterministic.
Definition C33_ops : list deque_op :=
  [DPush (Some 1%positive); DUnshift (Some 2%positive); DPush None; DCount; DGet 0; DGet 2; DGet 3; DGet (-1); DPop; DShift; DCount].
Example C33_case :
  match crun (<[1%positive := OCollTS []]> ∅) 1 C33_ops with
  | Ok (h', as_) => as_ = [DUnit; DUnit; DUnit; DNumber 3; DFound (Some 2%positive); DFound None; DNotFound; DNotFound; DElement None;
      DElement (Some 2%positive); DNumber 1] /\ h' !! 1%positive = Some (OCollTS [Some 1%positive])
  | _ => False
  end /\ crun (<[1%positive := OColl []]> ∅) 1 [DPush None; DPop; DPop] = Panic.
Proof. by vm_compute. Qed.

(** ** C34 *)
Theorem C34_last_entry : forall h c xs key v, collection_at h c xs ->
  returns (fun n => cget_data n h c key) (Some v) <->
  exists i d, xs !! i = Some (Some d) /\ gets h d key (Some v) /\
    forall j, (i < j < length xs)%nat -> exists d', xs !! j = Some (Some d') /\ gets h d' key None.
Proof. exact cget_data_found. Qed.
Print Assumptions C34_last_entry.
Theorem C34_not_found : forall h c xs key, collection_at h c xs ->
  returns (fun n => cget_data n h c key) None <->
  forall j, (j < length xs)%nat -> exists d, xs !! j = Some (Some d) /\ gets h d key None.
Proof. exact cget_data_missing. Qed.
Print Assumptions C34_not_found.
Definition C34_heap : heap :=
  <[1%positive := OColl [None; Some 2%positive; Some 3%positive; Some 4%positive]]>
  (<[2%positive := ODs (<[B "k" := VInt KInt 2]> ∅)]> (<[3%positive := ODs (<[B "k" := VInt KInt 3]> ∅)]> (<[4%positive := ODs ∅]> ∅))).
Example C34_case : cget_data 5 C34_heap 1 (B "k") = Ok (Some (VInt KInt 3)) /\ cget_data 5 C34_heap 1 (B "x") = Panic.
Proof. by vm_compute. Qed.

(** ** C35 *)
Theorem C35_deviations_refuted : forall F ord n h p t xs key, h !! p = Some (OColl xs) -> h !! t = Some (OCollTS xs) ->
  (forall i, cget h t i = cget h p i) /\ ccount h t = ccount h p /\ cget_data n h t key = cget_data n h p key /\
  cget_bool n h t key = cget_bool n h p key /\ cget_int n h t key = cget_int n h p key /\
  cget_float n h t key = cget_float n h p key /\ cget_time n h t key = cget_time n h p key /\
  (cget_data n h p key <> Ok (Some VNil) -> cget_string F ord n h t key = cget_string F ord n h p key) /\
  (cget_data n h p key = Ok (Some VNil) -> cget_string F ord n h p key = Ok ([], true) /\ cget_string F ord n h t key = Ok (B "<nil>", true)) /\
  ((forall v, cget_data n h p key = Ok (Some v) -> exists c ys, v = VRef c /\ collection_at h c ys) ->
     cget_collection n h t key = cget_collection n h p key) /\
  (forall v, cget_data n h p key = Ok (Some v) -> (forall c ys, v = VRef c -> ~ collection_at h c ys) ->
     cget_collection n h p key = Ok None /\ cget_collection n h t key = Panic).
Proof. exact same_content. Qed.
Print Assumptions C35_deviations_refuted.
Definition C35_heap : heap :=
  <[1%positive := OColl [Some 3%positive]]> (<[2%positive := OCollTS [Some 3%positive]]>
  (<[3%positive := ODs (<[B "nil" := VNil]> (<[B "n" := VInt KInt 3]> (<[B "c" := VRef 1]> ∅)))]> ∅)).
Example C35_case :
  map (fun c => (cget_string no_lib some_order 5 C35_heap c (B "nil"), cget_string no_lib some_order 5 C35_heap c (B "n"),
                 cget_collection 5 C35_heap c (B "n"), cget_collection 5 C35_heap c (B "c"))) [1%positive; 2%positive]
  = [(Ok ([], true), Ok (B "3", true), Ok None, Ok (Some 1%positive)); (Ok (B "<nil>", true), Ok (B "3", true), Panic, Ok (Some 1%positive))].
Proof. by vm_compute. Qed.

(** ** C71: no conversion, whatever the comment of GetFloatCollection says *)
Theorem C71_not_converted_refuted : forall h l key v, gets h l key (Some v) ->
  ((forall x, v <> VStrs x) -> returns (fun n => get_strings n h l key) ([], false)) /\
  ((forall x, v <> VBools x) -> returns (fun n => get_bools n h l key) ([], false)) /\
  ((forall x, v <> VInts x) -> returns (fun n => get_ints n h l key) ([], false)) /\
  ((forall x, v <> VFloats x) -> returns (fun n => get_floats n h l key) ([], false)) /\
  ((forall x, v <> VTimes x) -> returns (fun n => get_times n h l key) ([], false)).
Proof. exact slices_not_converted. Qed.
Print Assumptions C71_not_converted_refuted.
Example C71_case :
  let f := float_of_int 3 in
  map (fun v => get_floats 3 (one v) 1 (B "k")) [VFloat64 f; VInts [3]; VFloats [f]] = [Ok ([], false); Ok ([], false); Ok ([f], true)].
Proof. by vm_compute. Qed.

(** ** C75: the typed reads of a collection *)
Theorem C75_exact_types : forall h c key,
  (forall b, returns (fun n => cget_bool n h c key) (b, true) <-> returns (fun n => cget_data n h c key) (Some (VBool b))) /\
  (forall z, returns (fun n => cget_int n h c key) (z, true) <-> returns (fun n => cget_data n h c key) (Some (VInt KInt z))) /\
  (forall f, returns (fun n => cget_float n h c key) (f, true) <-> returns (fun n => cget_data n h c key) (Some (VFloat64 f))) /\
  (forall t, returns (fun n => cget_time n h c key) (t, true) <-> returns (fun n => cget_data n h c key) (Some (VTime t))).
Proof. exact cget_exact. Qed.
Print Assumptions C75_exact_types.
Theorem C75_otherwise_zero : forall h c key r, returns (fun n => cget_data n h c key) r ->
  ((forall b, r <> Some (VBool b)) -> returns (fun n => cget_bool n h c key) (false, false)) /\
  ((forall z, r <> Some (VInt KInt z)) -> returns (fun n => cget_int n h c key) (0, false)) /\
  ((forall f, r <> Some (VFloat64 f)) -> returns (fun n => cget_float n h c key) (S754_zero false, false)) /\
  ((forall t, r <> Some (VTime t)) -> returns (fun n => cget_time n h c key) (GoTime 0 0 0, false)).
Proof. exact cget_zero. Qed.
Print Assumptions C75_otherwise_zero.
Theorem C75_not_converted_refuted : forall F h c d key k z, collection_at h c [Some d] -> gets h d key (Some (VInt k z)) ->
  holds k z -> z <= 2 ^ 63 - 1 -> k <> KInt ->
  returns (fun n => get_int F n h d key) (z, true) /\ returns (fun n => cget_int n h c key) (0, false).
Proof. exact cget_int_differs. Qed.
Print Assumptions C75_not_converted_refuted.
Theorem C75_collection : forall h c xs key,
  h !! c = Some (OColl xs) ->
  (forall x, returns (fun n => cget_collection n h c key) (Some x) <->
     returns (fun n => cget_data n h c key) (Some (VRef x)) /\ exists ys, collection_at h x ys) /\
  (returns (fun n => cget_collection n h c key) None <->
     returns (fun n => cget_data n h c key) None \/
     exists v, returns (fun n => cget_data n h c key) (Some v) /\ forall x ys, v = VRef x -> ~ collection_at h x ys).
Proof. exact cget_collection_checked. Qed.
Print Assumptions C75_collection.
Example C75_case :
  let h v := <[2%positive := OColl [Some 1%positive]]> (one v) in
  map (fun v => (cget_int 3 (h v) 2 (B "k"), cget_bool 3 (h v) 2 (B "k"), get_int no_lib 3 (h v) 1 (B "k")))
    [VInt KInt 3; VInt KInt8 3; VBool true]
  = [(Ok (3, true), Ok (false, false), Ok (3, true)); (Ok (0, false), Ok (false, false), Ok (3, true)); (Ok (0, false), Ok (true, true), Ok (1, true))].
Proof. by vm_compute. Qed.
