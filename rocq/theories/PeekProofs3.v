(** * C125: a collection on the way, and an example. *)
From Verif Require Import GoBase GoStrings LangModel DatasetModel DatasetSpec SnapModel WaitModel WaitSpec WaitProofs2 WaitProofs4 PeekSpec PeekProofs PeekProofs2.
Local Open Scope nat_scope.

Definition fits_b (M : gmap loc loc) (h : heap) : bool :=
  forallb (fun lo => match lo.2 with
                     | OTs (Some d) => bool_decide (M !! lo.1 = Some d) && match h !! d with Some (ODs _) => true | _ => false end
                     | _ => true
                     end) (map_to_list h) &&
  forallb (fun ld => match h !! ld.1 with None => true | Some (OTs (Some d)) => bool_decide (d = ld.2) | _ => false end &&
                     match h !! ld.2 with None | Some (ODs _) => true | _ => false end) (map_to_list M) &&
  forallb (fun a => forallb (fun b => bool_decide (a.2 <> b.2) || bool_decide (a.1 = b.1)) (map_to_list M)) (map_to_list M).
Lemma fits_spec M h : fits_b M h = true -> fits (fun l => M !! l) h.
Proof.
  unfold fits_b. intros [[H1 H2]%andb_true_iff H3]%andb_true_iff. rewrite forallb_forall in H1, H2, H3. split; [|split].
  - intros l d E. specialize (H1 (l, OTs (Some d)) ltac:(by apply elem_of_list_In, elem_of_map_to_list)). cbn in H1.
    apply andb_true_iff in H1 as [Ha%bool_decide_eq_true Hb]. split; [exact Ha|]. destruct (h !! d) as [[m|?|?|?]|]; try discriminate Hb. by exists m.
  - intros l d E. specialize (H2 (l, d) ltac:(by apply elem_of_list_In, elem_of_map_to_list)). cbn in H2. apply andb_true_iff in H2 as [Ha Hb]. split.
    + destruct (h !! l) as [[?|[d'|]|?|?]|]; try discriminate Ha; [|by left]. apply bool_decide_eq_true in Ha as ->. by right.
    + destruct (h !! d) as [[m|?|?|?]|]; try discriminate Hb; [|by left]. right. by exists m.
  - intros l l' d E E'. specialize (H3 (l, d) ltac:(by apply elem_of_list_In, elem_of_map_to_list)). cbn in H3. rewrite forallb_forall in H3.
    specialize (H3 (l', d) ltac:(by apply elem_of_list_In, elem_of_map_to_list)). cbn in H3. apply orb_true_iff in H3 as [H3%bool_decide_eq_true|H3%bool_decide_eq_true]; [done|exact H3].
Qed.
Definition wrappers_b (names : list bytes) (h : heap) : bool :=
  forallb (fun lo => match lo.2 with
                     | ODs m => forallb (fun kv => bool_decide (kv.1 ∉ names) || match kv.2 with VRef y => match h !! y with Some (OTs (Some _)) => true | _ => false end | _ => true end) (map_to_list m)
                     | _ => true
                     end) (map_to_list h).
Lemma wrappers_spec names h : wrappers_b names h = true -> wrappers_under names h.
Proof.
  unfold wrappers_b. intros H l m k y El Hk Em. rewrite forallb_forall in H.
  specialize (H (l, ODs m) ltac:(by apply elem_of_list_In, elem_of_map_to_list)). cbn in H. rewrite forallb_forall in H.
  specialize (H (k, VRef y) ltac:(by apply elem_of_list_In, elem_of_map_to_list)). cbn in H. apply orb_true_iff in H as [H%bool_decide_eq_true|H]; [done|].
  destruct (h !! y) as [[?|[d|]|?|?]|]; try discriminate H. by exists d.
Qed.

(** ** The thing is taken from the shelf, and changed afterwards *)
Definition inside : gmap loc loc := list_to_map [(1%positive, 3%positive); (2%positive, 4%positive)].
Definition inside_of (l : loc) : option loc := inside !! l.
Definition customers : list (prog (option value)) :=
  [w_get 9 owner (B "shelf>0>x"); (_ <~~ w_shift shelf; _ <~~ w_set 9 thing (B "x") (num 2); Done None)].
Definition customer_schedule : list nat := replicate 8 0 ++ replicate 11 1 ++ replicate 4 0.
Definition sees (l : loc) (key : string) (h : heap) : option Z :=
  match dget 9 h l (B key) with Ok (Some (VInt KInt z)) => Some z | _ => None end.
Definition got (z : Z) (s : heap * list (routine (option value))) : bool :=
  match s.2 !! 0 with Some g => match code g with Done (Some (VInt KInt z')) => Z.eqb z z' | _ => false end | None => false end.
Lemma got_spec z s : got z s = true -> exists g, s.2 !! 0 = Some g /\ code g = Done (Some (num z)).
Proof.
  unfold got. destruct (s.2 !! 0) as [g|]; [|discriminate]. destruct (code g) as [[[]|]| | | | |] eqn:E; try discriminate. destruct k; try discriminate.
  intros ->%Z.eqb_eq. exists g. by split.
Qed.
Section Users.
  Context (F : golib) (ord : heap -> gmap bytes value -> list (bytes * value)).
  Lemma thing_outside : outside inside_of thing.
  Proof. intros x E. unfold inside_of, inside in E. cbn in E. rewrite !lookup_insert_Some in E. destruct E as [[_ E]|[_ [[_ E]|[_ E]]]]; [discriminate E|discriminate E|]. by rewrite lookup_empty in E. Qed.
  Lemma mother_outside : outside inside_of mother.
  Proof. intros x E. unfold inside_of, inside in E. cbn in E. rewrite !lookup_insert_Some in E. destruct E as [[_ E]|[_ [[_ E]|[_ E]]]]; [discriminate E|discriminate E|]. by rewrite lookup_empty in E. Qed.
  Lemma customers_users : Forall (user F ord inside_of) customers.
  Proof.
    unfold customers. apply Forall_cons; split; [|apply Forall_cons; split; [|apply Forall_nil; exact I]].
    - exact (user_last F ord inside_of _ (polite_get F ord inside_of 9 owner (B "shelf>0>x"))).
    - exact (user_method F ord inside_of _ _ _ (polite_shift F ord inside_of shelf) (fun _ =>
        user_method F ord inside_of _ _ _ (polite_set F ord inside_of 9 thing (B "x") (num 2) thing_outside) (fun _ => user_done F ord inside_of None))).
  Qed.
  (** ** An example: the child's x is changed, then the child is removed *)
  Definition visitors : list (prog (option value)) :=
    [w_get 9 mother (B "child>x"); (_ <~~ w_set 9 daughter (B "x") (num 5); _ <~~ w_del 9 mother (B "child"); Done None)].
  Lemma visitors_users : Forall (user F ord inside_of) visitors.
  Proof.
    unfold visitors. apply Forall_cons; split; [|apply Forall_cons; split; [|apply Forall_nil; exact I]].
    - exact (user_last F ord inside_of _ (polite_get F ord inside_of 9 mother (B "child>x"))).
    - exact (user_method F ord inside_of _ _ _ (polite_set F ord inside_of 9 daughter (B "x") (num 5) thing_outside) (fun _ =>
        user_method F ord inside_of _ _ _ (polite_del F ord inside_of 9 mother (B "child") mother_outside) (fun _ => user_done F ord inside_of None))).
  Qed.
End Users.
Lemma collection_case : exists (path : nat -> heap * list (routine (option value))) T g, history T path /\ path 0 = (shop, map fresh customers) /\
  (forall m, m <= T -> fits inside_of (path m).1) /\ (path T).2 !! 0 = Some g /\ code g = Done (Some (num 2)) /\
  forall m, m <= T -> dget 9 (path m).1 owner (B "shelf>0>x") = Ok (Some (num 1)) \/ dget 9 (path m).1 owner (B "shelf>0>x") = Ok None.
Proof.
  assert (H : last_of (shop, map fresh customers) customer_schedule (got 2)
    (fun h => fits_b inside h && match dget 9 h owner (B "shelf>0>x") with Ok None => true | Ok (Some (VInt KInt 1)) => true | _ => false end) = true) by (vm_compute; reflexivity).
  apply last_spec in H as (path & Hp & H0 & Hf & Hr). apply got_spec in Hf as (g & Eg & Ec). exists path, (length customer_schedule), g.
  split; [exact Hp|]. split; [exact H0|]. split; [intros m Hm; specialize (Hr m Hm); apply andb_true_iff in Hr as [Hr _]; exact (fits_spec inside _ Hr)|].
  split; [exact Eg|]. split; [exact Ec|]. intros m Hm. specialize (Hr m Hm). apply andb_true_iff in Hr as [_ Hr].
  destruct (dget 9 (path m).1 owner (B "shelf>0>x")) as [[v|]| |]; try discriminate Hr; [|by right]. left.
  destruct v as [| |k z| | | | | | | | | | |]; try discriminate Hr. destruct k; try discriminate Hr. destruct z as [|[]|]; try discriminate Hr. reflexivity.
Qed.
Definition visit (sch : list nat) (z : Z) : Prop := exists (path : nat -> heap * list (routine (option value))) g, history (length sch) path /\ path 0 = (house, map fresh visitors) /\
  (forall m, m <= length sch -> fits inside_of (path m).1 /\ wrappers_under [B "child"; B "x"] (path m).1) /\
  (path (length sch)).2 !! 0 = Some g /\ code g = Done (Some (num z)).
Lemma visit_run sch z : last_of (house, map fresh visitors) sch (got z) (fun h => fits_b inside h && wrappers_b [B "child"; B "x"] h) = true -> visit sch z.
Proof.
  intros H. apply last_spec in H as (path & Hp & H0 & Hf & Hr). apply got_spec in Hf as (g & Eg & Ec). exists path, g.
  split; [exact Hp|]. split; [exact H0|]. split; [|by split]. intros m Hm. specialize (Hr m Hm). apply andb_true_iff in Hr as [H1 H2].
  split; [exact (fits_spec inside _ H1)|exact (wrappers_spec _ _ H2)].
Qed.
(** The other one changes x before or after the Get reads it. *)
Definition early : list nat := replicate 4 0 ++ replicate 6 1 ++ replicate 4 0.
Definition late : list nat := replicate 6 0 ++ [1; 1; 0; 0] ++ replicate 10 1.
Lemma visits : visit early 5 /\ visit late 2 /\ split_on gt (B "child>x") = [B "child"; B "x"].
Proof. split; [apply visit_run; vm_compute; reflexivity|]. split; [apply visit_run; vm_compute; reflexivity|]. vm_compute. reflexivity. Qed.
