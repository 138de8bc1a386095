(** * Property theorems about the objects protected by a lock (C36-C38, C66). *)
From Verif Require Import GoBase GoStrings LangModel LockModel LockProofs LockInst LockInstProofs LockInstProofs2 LockInstProofs3.

(** C36: the answers are those of the sequential object called in the order of locking;
    [well_bracketed]: each call gets the lock between its start and its return. *)
Theorem C36_language : forall parse_tag decode quote l0 acts g tr,
  calls_only (lang_method quote) acts -> exec (init l0) acts = Some (g, tr) ->
  exists calls, order_of_locking (lang_method quote) calls tr /\
    (forall t, well_bracketed t tr) /\
    (forall t, returns t tr `prefix_of` results t (obj_run (lang_spec parse_tag decode quote) l0 calls).2) /\
    (forall t, c_thr g t = TIdle -> returns t tr = results t (obj_run (lang_spec parse_tag decode quote) l0 calls).2) /\
    ((forall t m, ~ in_section (c_thr g t) m) -> c_mem g = (obj_run (lang_spec parse_tag decode quote) l0 calls).1).
Proof. exact lang_linearizable. Qed.
Print Assumptions C36_language.
Theorem C36_dataset : forall (D V Q R : Type) inner_set inner_del inner_clone inner_read s0 acts g tr,
  let meth := @ts_method D V Q R inner_set inner_del inner_clone inner_read in
  let spec := ts_spec inner_set inner_del inner_clone inner_read in
  calls_only meth acts -> exec (init s0) acts = Some (g, tr) ->
  exists calls, order_of_locking meth calls tr /\
    (forall t, well_bracketed t tr) /\
    (forall t, returns t tr `prefix_of` results t (obj_run spec s0 calls).2) /\
    (forall t, c_thr g t = TIdle -> returns t tr = results t (obj_run spec s0 calls).2) /\
    ((forall t m, ~ in_section (c_thr g t) m) -> c_mem g = (obj_run spec s0 calls).1).
Proof. exact @ts_linearizable. Qed.
Print Assumptions C36_dataset.
Theorem C36_collection : forall (D : Type) (show : nat -> D -> bytes) s0 acts g tr,
  calls_only (coll_method show) acts -> exec (init s0) acts = Some (g, tr) ->
  exists calls, order_of_locking (coll_method show) calls tr /\
    (forall t, well_bracketed t tr) /\
    (forall t, returns t tr `prefix_of` results t (obj_run (deque show) s0 calls).2) /\
    (forall t, c_thr g t = TIdle -> returns t tr = results t (obj_run (deque show) s0 calls).2) /\
    ((forall t m, ~ in_section (c_thr g t) m) -> c_mem g = (obj_run (deque show) s0 calls).1).
Proof. exact @coll_linearizable. Qed.
Print Assumptions C36_collection.
(** No two threads inside, one of them writing. *)
Theorem C36_mutual_exclusion : forall (S L : Type) (s : S) (acts : list (action S L)) g tr t1 t2 m1 m2,
  exec (init s) acts = Some (g, tr) -> t1 <> t2 ->
  in_section (c_thr g t1) m1 -> in_section (c_thr g t2) m2 -> m_write m1 = false /\ m_write m2 = false.
Proof. exact @mutual_exclusion. Qed.
Print Assumptions C36_mutual_exclusion.
(** Some unfinished call can move as long as no call panicked inside the lock. *)
Theorem C36_progress : forall (S L : Type) (s : S) (acts : list (action S L)) g tr t,
  exec (init s) acts = Some (g, tr) -> (forall t m, c_thr g t <> TDead m) -> c_thr g t <> TIdle ->
  exists t' a g' lb, moves t' a /\ c_thr g t' <> TIdle /\ step g a = Some (g', lb).
Proof. exact @progress. Qed.
Print Assumptions C36_progress.
(** Thread 0 pushes and pops while thread 1 counts: thread 1 sees one element. *)
Definition C36_acts : list (action (list nat) (cres nat)) :=
  let sh := fun (_ : nat) (_ : nat) => B "" in
  call sh 0 (CPush 7) 1 ++ [AInv 0 (coll_method sh CPop); AInv 1 (coll_method sh CCount); AAcquire 1; AAnnounce 0; ABody 1; ARelease 1;
   AAcquire 0; ABody 0; ARet 1; ABody 0; ARelease 0; ARet 0].
Example C36_case :
  match exec (init []) C36_acts with
  | Some (g, tr) => returns 0 tr = [Some RUnit; Some (RElem 7)] /\ returns 1 tr = [Some (RCount 1)] /\ c_mem g = []
  | None => False
  end.
Proof. vm_compute. done. Qed.

(** C37 *)
Theorem C37_getdata_panic_refuted : forall (D : Type) (show : nat -> D -> bytes) (d : D),
  calls_only (coll_method show) (race_acts show) /\
  exists g tr, exec (init [d]) (race_acts show) = Some (g, tr) /\
    talk_of 0 tr = [(coll_method show CLen, Some (RCount 1))] /\
    talk_of 1 tr = [(coll_method show CPop, Some (RElem d))] /\
    c_thr g 0 = TDead (coll_method show (CElem 0)) /\ writers_blocked_for_good g.
Proof. exact @getdata_panic. Qed.
Print Assumptions C37_getdata_panic_refuted.
Theorem C37_no_shrink_no_panic : forall (D : Type) (show : nat -> D -> bytes) s0 acts g tr,
  Forall (fun a => match a with AInv _ m => exists o, m = coll_method show o /\ grows o | _ => True end) acts ->
  exec (init s0) acts = Some (g, tr) -> as_getdata show tr ->
  (forall t m, c_thr g t <> TDead m) /\ (forall t m, LRet t m None ∉ tr).
Proof. exact @getdata_no_panic. Qed.
Print Assumptions C37_no_shrink_no_panic.
(** A GetData on two elements while another thread pushes. *)
Example C37_case :
  let sh := fun (_ : nat) (_ : nat) => B "" in
  let get := fun d : nat => if decide (d = 3) then Some true else None in
  match exec (init [3; 4]) (call sh 0 CLen 1 ++ call sh 1 (CPush 9) 1 ++ call sh 0 (CElem 1) 1 ++ call sh 0 (CElem 0) 1) with
  | Some (g, tr) => returns 0 tr = [Some (RCount 2); Some (RElem 4); Some (RElem 3)]
  | None => False
  end /\ getdata get [(CLen, RCount 2); (CElem 1, RElem 4); (CElem 0, RElem 3)] (Some true).
Proof. split; [vm_compute; done|]. constructor. apply gd_next; [done|]. by constructor. Qed.

(** C38 *)
Theorem C38_empty_pop_blocks : forall (D : Type) (show : nat -> D -> bytes) s0 acts g tr t l o,
  (o = CPop \/ o = CShift) -> exec (init s0) acts = Some (g, tr) ->
  c_thr g t = TCS (coll_method show o) (m_body (coll_method show o)) l -> c_mem g = [] ->
  exists g1 lb, step g (ABody t) = Some (g1, lb) /\ c_thr g1 t = TDead (coll_method show o) /\ blocked_for_good g1.
Proof. exact @empty_pop_blocks. Qed.
Print Assumptions C38_empty_pop_blocks.
Theorem C38_nil_dataset_blocks : forall (D V Q R : Type) inner_set inner_del inner_clone inner_read acts g tr t l o,
  let meth := @ts_method D V Q R inner_set inner_del inner_clone inner_read in
  ((exists k v, o = TSet k v) \/ exists k, o = TDel k) -> calls_only meth acts -> exec (init None) acts = Some (g, tr) ->
  c_thr g t = TCS (meth o) (m_body (meth o)) l ->
  exists g1 lb, step g (ABody t) = Some (g1, lb) /\ c_thr g1 t = TDead (meth o) /\ blocked_for_good g1.
Proof. exact @nil_set_blocks. Qed.
Print Assumptions C38_nil_dataset_blocks.
(** Clone of the wrapper when the inner Clone panics, in particular of nothing. *)
Theorem C38_clone_blocks : forall (D V Q R : Type) inner_set inner_del inner_clone inner_read s0 acts g tr t l,
  let meth := @ts_method D V Q R inner_set inner_del inner_clone inner_read in
  exec (init s0) acts = Some (g, tr) -> c_thr g t = TCS (meth TClone) (m_body (meth TClone)) l ->
  (forall d, c_mem g = Some d -> inner_clone d = None) ->
  exists g1 lb, step g (ABody t) = Some (g1, lb) /\ c_thr g1 t = TDead (meth TClone) /\ writers_blocked_for_good g1.
Proof. exact @clone_blocks. Qed.
Print Assumptions C38_clone_blocks.
Theorem C38_language_releases : forall quote acts l0 g tr,
  calls_only (lang_method quote) acts -> exec (init l0) acts = Some (g, tr) -> forall t m, c_thr g t <> TDead m.
Proof. exact language_releases. Qed.
Print Assumptions C38_language_releases.
Theorem C38_reads_release : forall (D V Q R : Type) inner_set inner_del inner_clone inner_read acts s0 g tr,
  Forall (fun a => match a with AInv _ m => exists q, m = @ts_method D V Q R inner_set inner_del inner_clone inner_read (TRead q) | _ => True end) acts ->
  exec (init s0) acts = Some (g, tr) -> forall t m, c_thr g t <> TDead m.
Proof. exact @reads_release. Qed.
Print Assumptions C38_reads_release.
(** Pop on the empty collection by thread 0; then thread 1 asks for the count and waits. *)
Example C38_case :
  let sh := fun (_ : nat) (_ : nat) => B "" in
  match exec (init []) [AInv 0 (coll_method sh CPop); AAnnounce 0; AAcquire 0; ABody 0; AInv 1 (coll_method sh CCount)] with
  | Some (g, tr) => c_thr g 0 = TDead (coll_method sh CPop) /\ step g (AAcquire 1) = None
  | None => False
  end.
Proof. vm_compute. done. Qed.

(** C66 *)
Theorem C66_getdata_misses_refuted : forall (D V : Type) (show : nat -> D -> bytes) (get : D -> option V) a b v,
  get a = Some v -> get b = None ->
  calls_only (coll_method show) (miss_acts show b) /\
  (forall acts1 acts2, miss_acts show b = acts1 ++ acts2 ->
     exists g tr, exec (init [a]) acts1 = Some (g, tr) /\ a ∈ c_mem g) /\
  exists g tr talk, exec (init [a]) (miss_acts show b) = Some (g, tr) /\
    talk_of 0 tr = map (fun x => (coll_method show x.1, Some x.2)) talk /\ getdata get talk None.
Proof. exact (fun D V show => @getdata_misses D show V). Qed.
Print Assumptions C66_getdata_misses_refuted.
(** When the other threads only push and read, GetData answers as on the collection at one
    moment of its call: there it starts the section that takes the length, after the
    calls [pre] it made before. *)
Theorem C66_getdata_moment : forall (D V : Type) (show : nat -> D -> bytes) (get : D -> option V) s0 acts g tr t pre talk post r,
  appends_only show acts -> exec (init s0) acts = Some (g, tr) ->
  talk_of t tr = pre ++ map (fun x => (coll_method show x.1, Some x.2)) talk ++ post -> getdata get talk r ->
  exists acts1 acts2 g1 tr1, acts = acts1 ++ acts2 /\ exec (init s0) acts1 = Some (g1, tr1) /\ talk_of t tr1 = pre /\
    c_thr g1 t = TCS (coll_method show CLen) (m_body (coll_method show CLen)) RUnit /\
    match r with
    | Some v => exists i d, c_mem g1 !! i = Some d /\ get d = Some v /\ forall j e, i < j -> c_mem g1 !! j = Some e -> get e = None
    | None => forall j e, c_mem g1 !! j = Some e -> get e = None
    end.
Proof. exact (fun D V show => @getdata_moment D show V). Qed.
Print Assumptions C66_getdata_moment.
(** Thread 1 pushes an element that has the key, too late for the GetData of thread 0. *)
Example C66_case :
  let sh := fun (_ : nat) (_ : nat) => B "" in
  let get := fun d : nat => if decide (3 <= d) then Some d else None in
  let acts := call sh 0 CCount 1 ++ call sh 0 CLen 1 ++ call sh 1 (CPush 9) 1 ++ call sh 0 (CElem 2) 1 ++ call sh 0 (CElem 1) 1 in
  appends_only sh acts /\
  match exec (init [3; 4; 1]) acts with
  | Some (g, tr) => c_mem g = [3; 4; 1; 9] /\ map snd (talk_of 0 tr) = [Some (RCount 3); Some (RCount 3); Some (RElem 1); Some (RElem 4)]
  | None => False
  end /\ getdata get [(CLen, RCount 3); (CElem 2, RElem 1); (CElem 1, RElem 4)] (Some 4).
Proof.
  split; [|split; [vm_compute; done|]].
  - unfold appends_only. repeat (apply Forall_app_2 || apply Forall_cons || apply Forall_nil); try done; try (split; [|]); eauto; by eexists.
  - constructor. apply gd_next; [done|]. by apply gd_found.
Qed.
