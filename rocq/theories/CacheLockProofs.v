(** * The critical sections of XCache are atomic, and are released on a panic. *)
From Verif Require Import GoBase GoStrings LockModel LockProofs LockInst LockInstProofs LockInstProofs2 CacheModel CacheProofs CacheConc LockModel CacheLock.
Local Open Scope Z_scope.

Section CacheLock.
  Context {D : Type}.
  Notation shared := (shared D).
  Lemma evict_drop {E : Type} n pile (items : gmap bytes E) items' rest : evict n pile items = (false, items', rest) -> rest = drop n pile.
  Proof.
    revert pile items. induction n as [|n IH]; intros pile items; simpl; [by intros [= _ ->]|].
    destruct pile as [|k pile]; [done|]. intros H. by apply IH in H.
  Qed.
  Lemma run_app (b1 b2 : list (act shared (klocal D))) s l :
    run_body (b1 ++ b2) s l = match run_body b1 s l with (s', Some l') => run_body b2 s' l' | r => r end.
  Proof.
    revert s l. induction b1 as [|a b1 IH]; intros s l; simpl; [done|]. destruct (a s l) as [[s' l']|]; [apply IH|done].
  Qed.
  Lemma run_clean (s : shared) b o num perc i :
    run_body (a_clean perc i) s (Vars b true o num) =
    match cclean s perc (in_now i) (reads s i) with
    | (s', RPanic) => (s', None)
    | (s', _) => (s', Some (Vars b true false (quota (Z.of_nat (size (if decide (rd_exp1 (reads s i) = 0) then h_items s
        else filter (fun kx => before_now (ctime_of (h_heap s) kx.2) (rd_exp2 (reads s i) kx.1) (in_now i kx.1) = false) (h_items s)))) perc)))
    end.
  Proof.
    cbn. unfold cclean.
    set (m := if decide (rd_exp1 _ = 0) then _ else _). set (q := quota _ _).
    destruct (evict (Z.to_nat q) (h_pile s) m) as [[out m2] rest] eqn:E. destruct out; cbn; [done|].
    by rewrite (evict_drop _ _ _ _ _ E).
  Qed.
  Lemma clean_result (s : shared) perc now rd s' r : cclean (D := D) s perc now rd = (s', r) -> r <> RPanic ->
    r = RInt (Z.max 0 (quota (Z.of_nat (size (if decide (rd_exp1 rd = 0) then h_items s
        else filter (fun kx => before_now (ctime_of (h_heap s) kx.2) (rd_exp2 rd kx.1) (now kx.1) = false) (h_items s)))) perc)).
  Proof. unfold cclean. destruct (evict _ _ _) as [[out m2] rest]. destruct out; intros [= <- <-]; done. Qed.
  Lemma run_no_clean (s : shared) b o num perc i : run_body (a_clean perc i) s (Vars b false o num) = (s, Some (Vars b false o num)).
  Proof. done. Qed.

  Lemma sec_method_ok o : method_ok (@sec_method D o).
  Proof.
    destruct o; intros Hw; try discriminate Hw; apply Forall_singleton; intros s l s' l' He; simpl in He; by simplify_eq.
  Qed.
  Lemma sec_method_spec o (s : shared) : run_body (m_body (sec_method o)) s (m_init (sec_method o)) = sec_atomic s o.
  Proof.
    destruct o; cbn [sec_method m_body m_init]; try done.
    - rewrite run_app. cbn [run_body on].
      set (s1 := Shared (h_max s) (h_expire s) (<[in_loc i := Entry (in_t1 i) (in_t2 i) 0 d]> (h_heap s)) (<[k := in_loc i]> (h_items s))
                   ((if bool_decide (is_Some (h_items s !! k)) then remove_first k (h_pile s) else h_pile s) ++ [k]) (h_gone s)).
      transitivity (match run_body (a_clean 10 i ++ [finish (Done RUnit)]) s1
        (Vars false (bool_decide (rd_max1 (reads s1 i) > 0 /\ Z.of_nat (size (h_items s1)) >= rd_max2 (reads s1 i))) false 0) with r => r end).
      { unfold s1. by destruct (bool_decide (is_Some (h_items s !! k))). }
      unfold sec_atomic, cset. fold s1. rewrite run_app. change (reads s i) with (reads s1 i).
      destruct (bool_decide (rd_max1 (reads s1 i) > 0 /\ Z.of_nat (size (h_items s1)) >= rd_max2 (reads s1 i))).
      + rewrite run_clean. destruct (cclean s1 10 (in_now i) (reads s1 i)) as [s2 r]. by destruct r.
      + done.
    - cbn. by destruct (h_items s !! k).
    - rewrite run_app. unfold start_vars. rewrite run_clean. unfold sec_atomic. destruct (cclean s perc (in_now i) (reads s i)) as [s2 r] eqn:E.
      destruct r; try done; cbn; do 2 f_equal; symmetry; rewrite (clean_result _ _ _ _ _ _ E) by done; done.
  Qed.

  (** ** Atomicity *)
  Lemma cache_linearizable (s0 : shared) acts g tr :
    calls_only sec_method acts -> exec (init s0) acts = Some (g, tr) ->
    exists calls, order_of_locking sec_method calls tr /\
      (forall t, well_bracketed t tr) /\
      (forall t, returns t tr `prefix_of` results t (obj_run sec_atomic s0 calls).2) /\
      (forall t, c_thr g t = TIdle -> returns t tr = results t (obj_run sec_atomic s0 calls).2) /\
      ((forall t m, ~ in_section (c_thr g t) m) -> c_mem g = (obj_run sec_atomic s0 calls).1).
  Proof. apply obj_linearizable; [apply sec_method_ok|apply sec_method_spec]. Qed.
  Lemma cache_releases (s0 : shared) acts g tr :
    calls_only sec_method acts -> exec (init s0) acts = Some (g, tr) -> forall t m, c_thr g t <> TDead m.
  Proof.
    intros Hf He. eapply deferred_never_dead; [|done]. eapply Forall_impl; [exact Hf|].
    intros [t m| | | | |]; try done. intros [o ->]. split; [apply sec_method_ok|by destruct o].
  Qed.

  (** ** The steps of CacheConc.v are these sections *)
  Lemma cache_steps (dnil : D) (s : shared) i :
    (forall k d, h_heap s !! in_loc i = None ->
       exists r, tstep dnil s (CSet k d) Start i = Some ((sec_atomic s (KSet k d i)).1, Exit r) /\
         (sec_atomic s (KSet k d i)).2 = match r with RPanic => None | _ => Some (Done r) end) /\
    (forall k dur, tstep dnil s (CSetTTL k dur) Start i = Some ((sec_atomic s (KSetTTL k dur)).1, Exit RUnit)) /\
    (forall k, tstep dnil s (CDel k) Start i = Some ((sec_atomic s (KDel k)).1, Exit RUnit)) /\
    (exists n, tstep dnil s CCount Start i = Some (s, Exit (RInt n)) /\ sec_atomic s KCount = (s, Some (Done (RInt n)))) /\
    (forall perc, exists r, tstep dnil s (CClean perc) Start i = Some ((sec_atomic s (KClean perc i)).1, Exit r) /\
         (sec_atomic s (KClean perc i)).2 = match r with RPanic => None | _ => Some (Done r) end) /\
    tstep dnil s CFlush Start i = Some ((sec_atomic s KFlush).1, Exit RUnit) /\
    (forall k v, (exists x, sec_atomic s (KLook k) = (s, Some (Found (Some x))) /\ tstep dnil s (CGet k v) Start i = Some (s, GTtl x)) \/
                 (sec_atomic s (KLook k) = (s, Some (Found None)) /\ tstep dnil s (CGet k v) Start i = Some (s, Exit (RGet dnil false)))) /\
    (forall k v, tstep dnil s (CGet k v) GDel i = Some ((sec_atomic s (KDel k)).1, Exit (RGet dnil true))) /\
    (forall k v x e, h_heap s !! x = Some e ->
       tstep dnil s (CGet k v) (GTouch x) i = Some ((sec_atomic s (KTouch k)).1, Exit (RGet (e_data e) false))) /\
    (forall v, exists r, tstep dnil s (CVerify v) Start i = Some ((sec_atomic s (KClean 0 i)).1,
                 match v, r with Some _, RInt n => VRange n | _, _ => Exit r end) /\
         (sec_atomic s (KClean 0 i)).2 = match r with RPanic => None | _ => Some (Done r) end) /\
    (forall v k m st vis n, tstep dnil s (CVerify v) (VDel k m st vis n) i = Some ((sec_atomic s (KDel k)).1, VLoop m st vis (n + 1))).
  Proof.
    split_and!; try done.
    - intros k d Hn. cbn. rewrite Hn. destruct (cset s k d i) as [s' r]. by exists r.
    - intros k dur. cbn. by destruct (h_items s !! k).
    - eexists. done.
    - intros perc. cbn. destruct (cclean s perc (in_now i) (reads s i)) as [s' r]. by exists r.
    - intros k v. cbn. destruct (h_items s !! k) as [x|]; [left; by exists x|by right].
    - intros k v x e Hx. cbn. by rewrite Hx.
    - intros v. cbn. destruct (cclean s 0 (in_now i)) as [s' r]. exists r. destruct v, r; done.
  Qed.
End CacheLock.
