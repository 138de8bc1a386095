(** * C124: data whose ranks change, and an example. *)
From Verif Require Import GoBase GoStrings LangModel DatasetModel DatasetSpec DatasetProofs3 SnapModel TellModel WaitModel WaitSpec WaitProofs WaitProofs2.
Local Open Scope nat_scope.

(** ** Running a schedule *)
Section Run.
  Context {A : Type}.
  Notation state := (heap * list (routine A))%type.
  Definition barred_b (l : loc) (gs : list (routine A)) : bool := existsb (fun g => bool_decide ((true, l) ∈ held g) || asks l g) gs.
  Definition taken_b (l : loc) (gs : list (routine A)) : bool := existsb (fun g => bool_decide ((true, l) ∈ held g) || bool_decide ((false, l) ∈ held g)) gs.
  Lemma barred_spec l gs : barred_b l gs = true <-> barred l gs.
  Proof.
    unfold barred_b. rewrite existsb_exists. split.
    - intros (g & Hg & [Hh%bool_decide_eq_true|Ha]%orb_true_iff); exists g; (split; [by apply elem_of_list_In|]); [by left|right; by apply asks_spec].
    - intros (g & Hg & Hor). exists g. split; [by apply elem_of_list_In|]. apply orb_true_iff. destruct Hor as [Hh|Ha]; [left; by apply bool_decide_eq_true|right; by apply asks_spec].
  Qed.
  Lemma taken_spec l gs : taken_b l gs = true <-> taken l gs.
  Proof.
    unfold taken_b. rewrite existsb_exists. split.
    - intros (g & Hg & [Hh%bool_decide_eq_true|Hh%bool_decide_eq_true]%orb_true_iff); [exists g, true|exists g, false]; (split; [by apply elem_of_list_In|exact Hh]).
    - intros (g & w & Hg & Hh). exists g. split; [by apply elem_of_list_In|]. apply orb_true_iff. destruct w; [left|right]; by apply bool_decide_eq_true.
  Qed.
  Definition step (i : nat) (s : state) : option state :=
    match s.2 !! i with
    | Some (Routine hs b (Take false l k)) => if barred_b l s.2 then None else Some (s.1, <[i := Routine ((false, l) :: hs) b k]> s.2)
    | Some (Routine hs false (Take true l k)) => Some (s.1, <[i := Routine hs true (Take true l k)]> s.2)
    | Some (Routine hs true (Take true l k)) => if taken_b l s.2 then None else Some (s.1, <[i := Routine ((true, l) :: hs) false k]> s.2)
    | Some (Routine hs b (Leave w l k)) => if bool_decide ((w, l) ∈ hs) then Some (s.1, <[i := Routine (drop_one (w, l) hs) b k]> s.2) else None
    | Some (Routine hs b (Look w k)) => Some (w s.1, <[i := Routine hs b (k s.1)]> s.2)
    | _ => None
    end.
  Lemma step_moves i s s' : step i s = Some s' -> moves i s s'.
  Proof.
    destruct s as [h gs]. unfold step. cbn [fst snd]. destruct (gs !! i) as [[hs b p]|] eqn:E; [|discriminate].
    destruct p as [a| | |[] l k|w l k|w k]; try (destruct b; discriminate).
    - destruct b.
      + destruct (taken_b l gs) eqn:Et; [discriminate|]. intros [= <-]. apply (moves_write i h gs hs l k E).
        intros Ht%taken_spec. congruence.
      + intros [= <-]. exact (moves_ask i h gs hs l k E).
    - destruct b; (destruct (barred_b l gs) eqn:Et; [discriminate|]; intros [= <-]; apply (moves_read i h gs hs _ l k E);
        intros Ht%barred_spec; congruence).
    - destruct b; (case_bool_decide as Hin; [|discriminate]; intros [= <-]; exact (moves_leave i h gs hs _ w l k E Hin)).
    - destruct b; (intros [= <-]; exact (moves_look i h gs hs _ w k E)).
  Qed.
  Lemma moves_step i s s' : moves i s s' -> step i s <> None.
  Proof.
    intros Hm. destruct Hm as [h gs hs b l k E Hb|h gs hs l k E|h gs hs l k E Ht|h gs hs b w l k E Hin|h gs hs b w k E];
      unfold step; cbn [fst snd]; rewrite E.
    - destruct b; (destruct (barred_b l gs) eqn:Eb; [by apply barred_spec in Eb|discriminate]).
    - discriminate.
    - destruct (taken_b l gs) eqn:Eb; [by apply taken_spec in Eb|discriminate].
    - destruct b; rewrite bool_decide_eq_true_2 by exact Hin; discriminate.
    - destruct b; discriminate.
  Qed.
  Fixpoint trail (sch : list nat) (s : state) : option (list state) :=
    match sch with
    | [] => Some []
    | i :: sch' => match step i s with Some s' => match trail sch' s' with Some ss => Some (s' :: ss) | None => None end | None => None end
    end.
  Definition walk (s : state) (ss : list state) (m : nat) : state := nth m (s :: ss) s.
  Lemma trail_history sch : forall s ss, trail sch s = Some ss -> forall d, history (length ss) (fun m => nth m (s :: ss) d).
  Proof.
    induction sch as [|i sch IH]; intros s ss E d m Hm; cbn in E; [injection E as <-; cbn in Hm; lia|].
    destruct (step i s) as [s'|] eqn:Es; [|discriminate E]. destruct (trail sch s') as [ss'|] eqn:Et; [|discriminate E]. injection E as <-.
    destruct m as [|m]; [exists i; exact (step_moves i s s' Es)|]. cbn in Hm. exact (IH s' ss' Et d m ltac:(lia)).
  Qed.
  Definition over_b (g : routine A) : bool := match code g with Done _ | Crash | Short => true | _ => false end.
  Lemma over_spec g : over_b g = true <-> over g.
  Proof. unfold over_b, over. destruct (code g); split; try done. Qed.
  (** Nobody can move, nobody is finished. *)
  Definition stuck_b (s : state) : bool :=
    forallb (fun i => match step i s with None => true | Some _ => false end) (seq 0 (length s.2)).
  Lemma stuck_spec s : stuck_b s = true -> forall i, ~ can_move s i.
  Proof.
    intros Hb i [s' Hm]. pose proof (moves_step i s s' Hm) as Hs. assert (Hi : i < length s.2).
    { inversion Hm; subst; cbn; eapply lookup_lt_Some; eassumption. }
    unfold stuck_b in Hb. rewrite forallb_forall in Hb. specialize (Hb i). rewrite in_seq in Hb. specialize (Hb ltac:(lia)).
    destruct (step i s); [discriminate Hb|]. by apply Hs.
  Qed.
  Definition waits_b (gs : list (routine A)) (i j : nat) : bool :=
    match gs !! i, gs !! j with
    | Some g, Some g' =>
        match code g with
        | Take w l _ => bool_decide ((true, l) ∈ held g') || (w && bool_decide ((false, l) ∈ held g')) || (negb w && asks l g')
        | _ => false
        end
    | _, _ => false
    end.
  Lemma waits_spec gs i j : waits_b gs i j = true -> waits gs i j.
  Proof.
    unfold waits_b. destruct (gs !! i) as [g|] eqn:Ei; [|discriminate]. destruct (gs !! j) as [g'|] eqn:Ej; [|discriminate].
    destruct (code g) as [a| | |w l k|w l k|w k] eqn:Ec; try discriminate.
    intros [[Hh%bool_decide_eq_true|[Hw Hh%bool_decide_eq_true]%andb_true_iff]%orb_true_iff|[Hw Ha]%andb_true_iff]%orb_true_iff.
    - exact (waits_holder gs i j g g' w l k true Ei Ej Ec Hh (or_intror eq_refl)).
    - exact (waits_holder gs i j g g' w l k false Ei Ej Ec Hh (or_introl Hw)).
    - apply asks_spec in Ha as [Ha [k' Ek]]. destruct w; [discriminate Hw|]. exact (waits_asked gs i j g g' l k k' Ei Ej Ec Ek Ha).
  Qed.
  Definition none_over (s : state) : bool := forallb (fun g => negb (over_b g)) s.2.
  (** Nobody wants a lock it holds itself. *)
  Definition clean_b (g : routine A) : bool :=
    match code g with Take _ l _ => bool_decide ((true, l) ∉ held g) && bool_decide ((false, l) ∉ held g) | _ => true end.
End Run.

(** ** Ranks *)
Definition refs (o : obj) : list loc :=
  match o with
  | ODs m => omap (fun kv => match kv.2 with VRef y => Some y | _ => None end) (map_to_list m)
  | OTs (Some d) => [d]
  | OTs None => []
  | OColl xs | OCollTS xs => omap (fun x => x) xs
  end.
Definition ranked_b (rank : loc -> nat) (h : heap) : bool :=
  forallb (fun xo => forallb (fun y => Nat.ltb (rank y) (rank xo.1)) (refs xo.2)) (map_to_list h).
Lemma child_refs h x y : child h x y -> exists o, h !! x = Some o /\ y ∈ refs o.
Proof.
  intros Hc. destruct Hc as [l m k d E Hm|l d E|l xs d [E|E] Hin].
  - exists (ODs m). split; [exact E|]. cbn. apply elem_of_list_omap. exists (k, VRef d). split; [by apply elem_of_map_to_list|reflexivity].
  - exists (OTs (Some d)). split; [exact E|]. cbn. apply elem_of_list_singleton. reflexivity.
  - exists (OColl xs). split; [exact E|]. cbn. apply elem_of_list_omap. exists (Some d). split; [exact Hin|reflexivity].
  - exists (OCollTS xs). split; [exact E|]. cbn. apply elem_of_list_omap. exists (Some d). split; [exact Hin|reflexivity].
Qed.
Lemma ranked_spec rank h : ranked_b rank h = true -> ranked rank h.
Proof.
  intros Hb x y Hc. apply child_refs in Hc as (o & E & Hin). unfold ranked_b in Hb. rewrite forallb_forall in Hb.
  specialize (Hb (x, o) ltac:(by apply elem_of_list_In, elem_of_map_to_list)). cbn in Hb. rewrite forallb_forall in Hb.
  apply Nat.ltb_lt, Hb. by apply elem_of_list_In.
Qed.
Lemma ranked_acyclic rank h : ranked rank h -> forall x, acyclic h x.
Proof.
  intros Hr x. assert (H : forall n x, rank x < n -> acyclic h x).
  { intros n. induction n as [|n IH]; intros z Hz; [lia|]. apply Acc_intro. intros y Hy. apply IH. pose proof (Hr _ _ Hy). lia. }
  exact (H _ x (Nat.lt_succ_diag_r _)).
Qed.

(** ** A parent and a child that refer to each other *)
Definition run {A} (m : prog A) : prog unit := _ <~~ m; Done tt.
Definition map1 (l : list (bytes * value)) : obj := ODs (list_to_map l).
Definition num (n : Z) : value := VInt KInt n.
Definition mother : loc := 1%positive.
Definition daughter : loc := 2%positive.
Definition family : heap :=
  list_to_map [(mother, OTs (Some 3%positive)); (3%positive, map1 [(B "child", VRef daughter); (B "x", num 1)]);
               (daughter, OTs (Some 4%positive)); (4%positive, map1 [(B "parent", VRef mother); (B "x", num 2)])].
Definition relatives : list (prog unit) :=
  [run (w_get 9 mother (B "child>x")); run (w_get 9 daughter (B "parent>x"));
   run (w_set 9 mother (B "x") (num 3)); run (w_set 9 daughter (B "x") (num 4))].
Definition family_schedule : list nat := [0; 0; 0; 0; 1; 1; 1; 1; 2; 2; 3; 3].
(** Everybody waits. *)
Definition frozen {A} (s : heap * list (routine A)) : Prop :=
  s.2 <> [] /\ (forall i, ~ can_move s i) /\ forall g, g ∈ s.2 -> ~ over g /\ forall w l k, code g = Take w l k -> forall w', (w', l) ∉ held g.
Definition frozen_b {A} (s : heap * list (routine A)) : bool :=
  match s.2 with [] => false | _ => true end && stuck_b s && none_over s && forallb clean_b s.2.
Lemma frozen_spec {A} (s : heap * list (routine A)) : frozen_b s = true -> frozen s.
Proof.
  unfold frozen_b. intros [[[H1 H2]%andb_true_iff H3]%andb_true_iff H4]%andb_true_iff. split; [by destruct s.2|].
  split; [exact (stuck_spec s H2)|]. intros g Hg. unfold none_over in H3. rewrite forallb_forall in H3. rewrite forallb_forall in H4.
  apply elem_of_list_In in Hg. specialize (H3 g Hg). specialize (H4 g Hg). split.
  - intros Ho%over_spec. by rewrite Ho in H3.
  - intros w l k E w'. unfold clean_b in H4. rewrite E in H4. apply andb_true_iff in H4 as [Ha%bool_decide_eq_true Hb%bool_decide_eq_true]. by destruct w'.
Qed.
Definition last_of {A} (s : heap * list (routine A)) (sch : list nat) (f : heap * list (routine A) -> bool) (each : heap -> bool) : bool :=
  match trail sch s with
  | Some ss => Nat.eqb (length ss) (length sch) && f (nth (length ss) (s :: ss) s) && forallb (fun s => each s.1) (s :: ss)
  | None => false
  end.
Lemma last_spec {A} (s : heap * list (routine A)) sch f each : last_of s sch f each = true ->
  exists path, history (length sch) path /\ path 0 = s /\ f (path (length sch)) = true /\ forall m, m <= length sch -> each (path m).1 = true.
Proof.
  unfold last_of. destruct (trail sch s) as [ss|] eqn:Et; [|discriminate].
  intros [[HL%Nat.eqb_eq Hf]%andb_true_iff He]%andb_true_iff. exists (fun m => nth m (s :: ss) s).
  rewrite <- HL. split; [exact (trail_history sch s ss Et s)|]. split; [reflexivity|]. split; [exact Hf|].
  intros m Hm. rewrite forallb_forall in He. apply He, nth_In. cbn. lia.
Qed.
Definition circle4 (i j k z : nat) (gs : list (routine unit)) : bool := waits_b gs i j && waits_b gs j k && waits_b gs k z && waits_b gs z i.
Lemma circle_spec i j k z gs : circle4 i j k z gs = true -> tc (waits gs) i i.
Proof.
  unfold circle4. intros [[[H1 H2]%andb_true_iff H3]%andb_true_iff H4]%andb_true_iff.
  apply waits_spec in H1, H2, H3, H4. eapply tc_l; [exact H1|]. eapply tc_l; [exact H2|]. eapply tc_l; [exact H3|]. by apply tc_once.
Qed.
Lemma parent_deadlock : exists (path : nat -> heap * list (routine unit)) T, history T path /\ path 0 = (family, map fresh relatives) /\
  tc (waits (path T).2) 0 0 /\ frozen (path T).
Proof.
  assert (H : last_of (family, map fresh relatives) family_schedule (fun s => circle4 0 3 1 2 s.2 && frozen_b s) (fun _ => true) = true) by (vm_compute; reflexivity).
  apply last_spec in H as (path & Hp & H0 & [Hc Hf]%andb_true_iff & _). exists path, (length family_schedule).
  split; [exact Hp|]. split; [exact H0|]. split; [exact (circle_spec _ _ _ _ _ Hc)|exact (frozen_spec _ Hf)].
Qed.

(** ** Data that never contain themselves, but whose order is turned round *)
Definition owner : loc := 1%positive.
Definition thing : loc := 2%positive.
Definition shelf : loc := 5%positive.
Definition shop : heap :=
  list_to_map [(owner, OTs (Some 3%positive)); (3%positive, map1 [(B "shelf", VRef shelf)]); (shelf, OCollTS [Some thing]);
               (thing, OTs (Some 4%positive)); (4%positive, map1 [(B "x", num 1)])].
(** Read the first thing on the shelf; take it from the shelf and note its owner in it; read the owner's x; two ordinary Sets. *)
Definition people : list (prog unit) :=
  [run (w_get 9 owner (B "shelf>0>x"));
   (_ <~~ w_shift shelf; run (w_set 9 thing (B "owner") (VRef owner)));
   run (w_get 9 thing (B "owner>x"));
   run (w_set 9 owner (B "x") (num 3)); run (w_set 9 thing (B "x") (num 4))].
Definition shop_schedule : list nat := replicate 8 0 ++ replicate 11 1 ++ replicate 4 2 ++ [3; 3; 4; 4].
Definition rank_before (l : loc) : nat := match l with 1%positive => 5 | 3%positive => 4 | 5%positive => 3 | 2%positive => 2 | _ => 1 end.
Definition rank_after (l : loc) : nat := match l with 2%positive => 5 | 4%positive => 4 | 1%positive => 3 | 3%positive => 2 | _ => 1 end.
Definition waiting_ones (s : heap * list (routine unit)) : bool :=
  stuck_b s && circle4 0 4 2 3 s.2 && match s.2 with g0 :: g1 :: gs => forallb (fun g => negb (over_b g) && clean_b g) (g0 :: gs) && over_b g1 && bool_decide (held g1 = []) | _ => false end.
Lemma shop_deadlock : exists (path : nat -> heap * list (routine unit)) T, history T path /\ path 0 = (shop, map fresh people) /\
  (forall m, m <= T -> forall x, acyclic (path m).1 x) /\ no_dead_holder (path T).2 /\
  tc (waits (path T).2) 0 0 /\ (forall i, ~ can_move (path T) i) /\
  exists g0 g1 gs, (path T).2 = g0 :: g1 :: gs /\ Forall (fun g => ~ over g) (g0 :: gs).
Proof.
  assert (H : last_of (shop, map fresh people) shop_schedule waiting_ones (fun h => ranked_b rank_before h || ranked_b rank_after h) = true) by (vm_compute; reflexivity).
  apply last_spec in H as (path & Hp & H0 & Hf & Hr). exists path, (length shop_schedule).
  split; [exact Hp|]. split; [exact H0|]. unfold waiting_ones in Hf. apply andb_true_iff in Hf as [[Hs Hc]%andb_true_iff Hg].
  split.
  { intros m Hm x. specialize (Hr m Hm). apply orb_true_iff in Hr as [Hr%ranked_spec|Hr%ranked_spec]; exact (ranked_acyclic _ _ Hr x). }
  destruct (path (length shop_schedule)) as [h' gs'] eqn:Es. cbn [fst snd] in *. destruct gs' as [|g0 [|g1 gs]]; try discriminate Hg.
  apply andb_true_iff in Hg as [[Hn Ho]%andb_true_iff Hh%bool_decide_eq_true].
  assert (Hno : Forall (fun g => ~ over g) (g0 :: gs)).
  { apply Forall_forall. intros g Hg Hov%over_spec. rewrite forallb_forall in Hn. specialize (Hn g ltac:(by apply elem_of_list_In)).
    rewrite Hov in Hn. discriminate Hn. }
  split.
  { intros g Hg Hov. apply elem_of_cons in Hg as [->|Hg].
    - apply Forall_cons in Hno as [Hn0 _]. by destruct Hn0.
    - apply elem_of_cons in Hg as [->|Hg]; [exact Hh|]. apply Forall_cons in Hno as [_ Hn0]. rewrite Forall_forall in Hn0. by destruct (Hn0 g Hg). }
  split; [exact (circle_spec _ _ _ _ _ Hc)|]. split; [exact (stuck_spec _ Hs)|]. exists g0, g1, gs. split; [reflexivity|exact Hno].
Qed.

(** ** An example *)
Definition house : heap :=
  list_to_map [(mother, OTs (Some 3%positive)); (3%positive, map1 [(B "child", VRef daughter); (B "x", num 1)]);
               (daughter, OTs (Some 4%positive)); (4%positive, map1 [(B "x", num 2)])].
Definition guests : list (prog unit) :=
  [run (w_get 9 mother (B "child>x")); run (w_clone (fun _ m => map_to_list m) 9 daughter);
   run (w_set 9 mother (B "x") (num 3)); run (w_set 9 daughter (B "x") (num 4))].
(** 0 holds the mother and wants the daughter, for which 3 has asked; 1 holds the daughter; 2 wants the mother. *)
Definition queue : list nat := [0; 0; 0; 0; 1; 1; 2; 2; 3; 3].
Definition finish : list nat := [1; 1; 3; 3; 3; 3; 0; 0; 0; 0; 2; 2; 2; 2].
Definition rank_house (l : loc) : nat := match l with 1%positive => 4 | 3%positive => 3 | 2%positive => 2 | _ => 1 end.
Definition queued (s : heap * list (routine unit)) : bool :=
  waits_b s.2 0 3 && waits_b s.2 3 1 && waits_b s.2 2 0 &&
  forallb (fun i => match step i s with Some _ => Nat.eqb i 1 | None => true end) (seq 0 4).
Definition all_over (s : heap * list (routine unit)) : bool := forallb (fun g => over_b g && bool_decide (held g = [])) s.2.
Section Callers.
  Context (F : golib) (ord : heap -> gmap bytes value -> list (bytes * value)).
  Lemma run_caller {C} (m : prog C) : method F ord C m -> caller F ord (run m).
  Proof. intros Hm. exact (calls_method F ord C m _ Hm (fun _ => calls_done F ord tt)). Qed.
  Lemma guests_callers : Forall (caller F (fun _ m => map_to_list m)) guests.
  Proof.
    unfold guests. apply Forall_cons; split; [|apply Forall_cons; split; [|apply Forall_cons; split; [|apply Forall_cons; split; [|apply Forall_nil; exact I]]]].
    - exact (calls_method F _ _ _ _ (is_get F _ 9 mother _) (fun _ => calls_done F _ tt)).
    - exact (calls_method F _ _ _ _ (is_clone F _ 9 daughter) (fun _ => calls_done F _ tt)).
    - exact (calls_method F _ _ _ _ (is_set F _ 9 mother _ _) (fun _ => calls_done F _ tt)).
    - exact (calls_method F _ _ _ _ (is_set F _ 9 daughter _ _) (fun _ => calls_done F _ tt)).
  Qed.
  Lemma relatives_callers : Forall (caller F ord) relatives.
  Proof.
    unfold relatives. apply Forall_cons; split; [|apply Forall_cons; split; [|apply Forall_cons; split; [|apply Forall_cons; split; [|apply Forall_nil; exact I]]]].
    - exact (run_caller _ (is_get F ord 9 mother _)).
    - exact (run_caller _ (is_get F ord 9 daughter _)).
    - exact (run_caller _ (is_set F ord 9 mother _ _)).
    - exact (run_caller _ (is_set F ord 9 daughter _ _)).
  Qed.
  Lemma people_callers : Forall (caller F ord) people.
  Proof.
    unfold people. apply Forall_cons; split; [|apply Forall_cons; split; [|apply Forall_cons; split; [|apply Forall_cons; split; [|apply Forall_cons; split; [|apply Forall_nil; exact I]]]]].
    - exact (run_caller _ (is_get F ord 9 owner _)).
    - exact (calls_method F ord _ _ _ (is_shift F ord shelf) (fun _ => run_caller _ (is_set F ord 9 thing _ _))).
    - exact (run_caller _ (is_get F ord 9 thing _)).
    - exact (run_caller _ (is_set F ord 9 owner _ _)).
    - exact (run_caller _ (is_set F ord 9 thing _ _)).
  Qed.
End Callers.
Lemma house_case :
  (exists (path : nat -> heap * list (routine unit)), history 10 path /\ path 0 = (house, map fresh guests) /\ (forall m, m <= 10 -> ranked rank_house (path m).1) /\
     waits (path 10).2 0 3 /\ waits (path 10).2 3 1 /\ waits (path 10).2 2 0 /\ forall i, can_move (path 10) i -> i = 1) /\
  (exists (path : nat -> heap * list (routine unit)), history 24 path /\ path 0 = (house, map fresh guests) /\ (forall m, m <= 24 -> ranked rank_house (path m).1) /\
     Forall over (path 24).2).
Proof.
  split.
  - assert (H : last_of (house, map fresh guests) queue (fun s => queued s && Nat.eqb (length s.2) 4) (ranked_b rank_house) = true) by (vm_compute; reflexivity).
    apply last_spec in H as (path & Hp & H0 & [Hq HL%Nat.eqb_eq]%andb_true_iff & Hr). change (length queue) with 10 in *. exists path.
    split; [exact Hp|]. split; [exact H0|]. split; [intros m Hm; apply ranked_spec, Hr, Hm|].
    unfold queued in Hq. apply andb_true_iff in Hq as [[[H1%waits_spec H2%waits_spec]%andb_true_iff H3%waits_spec]%andb_true_iff Hs].
    split; [exact H1|]. split; [exact H2|]. split; [exact H3|]. intros i [s' Hm].
    pose proof (moves_step i _ s' Hm) as Hn. rewrite forallb_forall in Hs. specialize (Hs i).
    assert (Hi : i < 4).
    { rewrite <- HL. destruct (path 10) as [hh gg]. inversion Hm; subst; cbn; eapply lookup_lt_Some; eassumption. }
    rewrite in_seq in Hs. specialize (Hs ltac:(lia)). destruct (step i (path 10)); [by apply Nat.eqb_eq|by destruct Hn].
  - assert (H : last_of (house, map fresh guests) (queue ++ finish) all_over (ranked_b rank_house) = true) by (vm_compute; reflexivity).
    apply last_spec in H as (path & Hp & H0 & Hq & Hr). change (length (queue ++ finish)) with 24 in *. exists path.
    split; [exact Hp|]. split; [exact H0|]. split; [intros m Hm; apply ranked_spec, Hr, Hm|].
    apply Forall_forall. intros g Hg. unfold all_over in Hq. rewrite forallb_forall in Hq. specialize (Hq g ltac:(by apply elem_of_list_In)).
    apply andb_true_iff in Hq as [Ho _]. by apply over_spec.
Qed.

(** ** When nobody can move any more, everybody has come to its end *)
Lemma history_returns F ord (Hord : order_ok ord) {A} (rank : loc -> nat) (path : nat -> heap * list (routine A)) T h ps :
  path 0 = (h, map fresh ps) -> Forall (caller F ord) ps -> history T path -> (forall m, m <= T -> ranked rank (path m).1) ->
  no_dead_holder (path T).2 -> (forall i, ~ can_move (path T) i) -> Forall over (path T).2.
Proof.
  intros H0 Hps Hp Hr Hd Hs. apply Forall_lookup. intros i g Ei. destruct (over_b g) eqn:Eo; [by apply over_spec|].
  destruct (history_goes_on F ord Hord rank path T h ps H0 Hps Hp Hr i g Hd Ei) as (j & _ & Hj).
  - intros Ho%over_spec. congruence.
  - by destruct (Hs j).
Qed.
