(** * Proofs for C127: Execute with locks, alone and among others. *)
From Verif Require Import GoBase GoStrings LangModel DatasetModel DatasetSpec DatasetProofs3 TemplateModel ParModel ParProofs SnapModel TellModel WaitModel WaitSpec WaitProofs WaitProofs2 WaitProofs3 ServeModel ServeSpec.
Local Open Scope nat_scope.

Definition same {A} (m : prog A) (p : act A) : Prop := forall h, solo m h = alone p h.
Lemma same_bind {A C} (m : prog A) p (f : A -> prog C) g : same m p -> (forall a, same (f a) (g a)) -> same (pbind m f) (abind p g).
Proof. intros Hm Hf h. rewrite solo_bind, alone_bind, Hm. destruct (alone p h) as [[h1 a]| |]; try reflexivity. apply Hf. Qed.
Lemma same_ret {A} (a : A) : same (Done a) (Ret a). Proof. done. Qed.
Lemma same_fail {A} : same (@Crash A) Fail. Proof. done. Qed.
Lemma same_out {A} : same (@Short A) Out. Proof. done. Qed.
Lemma same_given {A} (r : outcome A) : same (given r) (lift r). Proof. intros h. rewrite solo_given, alone_lift. reflexivity. Qed.
Lemma same_get n d key : same (w_get n d key) (read (fun h => dget n h d key)).
Proof. intros h. rewrite solo_get, alone_read. reflexivity. Qed.
Lemma same_count c : same (w_count c) (read (fun h => ccount h c)).
Proof. intros h. unfold w_count. rewrite solo_inspect, alone_read. reflexivity. Qed.
Lemma same_elem c i : same (w_elem c i) (read (fun h => cget h c i)).
Proof. intros h. unfold w_elem. rewrite solo_inspect, alone_read. reflexivity. Qed.
Lemma same_set n d key v : same (w_set n d key v) (write (fun h => dset n h d key v)).
Proof. intros h. unfold w_set. rewrite solo_alter, alone_write. reflexivity. Qed.
Lemma same_see {A} (f : heap -> A) : same (see (fun h => Done (f h))) (read (fun h => Ok (f h))). Proof. done. Qed.
Section Same.
  Context (F : golib) (ord : heap -> gmap bytes value -> list (bytes * value)) (langs : nat -> option lang) (th : theap).
  Lemma same_show n go d : same (w_show F ord n go d) (read (fun h => show F ord n h go d)).
  Proof. intros h. rewrite solo_show, alone_read. reflexivity. Qed.
  Lemma same_value n v : same (w_value F (w_show F ord n) false v) (read (fun h => sprint F ord n h v)).
  Proof. intros h. rewrite alone_read. unfold sprint. rewrite (solo_value F _ (show F ord n h) false v h (mild_show F ord n)); [reflexivity|]. intros l. apply solo_show. Qed.
  Lemma same_tested {A} n v (g : bytes -> A) : same (s <~~ w_value F (w_show F ord n) false v; Done (g s)) (read (fun h => s <-! sprint F ord n h v; Ok (g s))).
  Proof. intros h. rewrite solo_bind, same_value, !alone_read. destruct (sprint F ord n h v); reflexivity. Qed.
  Lemma same_search n back key : same (s_search n back key) (p_search n back key).
  Proof. induction back as [|d back IH]; [done|]. cbn [s_search p_search]. apply same_bind; [apply same_get|]. intros [v|]; [done|exact IH]. Qed.
  Lemma same_data n xs key : same (s_data n xs key) (p_data n xs key). Proof. apply same_search. Qed.
  Lemma same_string n xs key : same (s_string F ord n xs key) (p_string F ord n xs key).
  Proof. unfold s_string, p_string. apply same_bind; [apply same_data|]. intros [[]|]; try apply same_value; done. Qed.
  Lemma same_collection n xs key : same (s_collection n xs key) (p_collection n xs key).
  Proof. unfold s_collection, p_collection. apply same_bind; [apply same_data|]. intros r. apply same_see. Qed.
  Lemma same_non_nil {A} sc (f : list loc -> prog A) g : (forall xs, same (f xs) (g xs)) -> same (s_non_nil sc f) (p_non_nil sc g).
  Proof. intros H. destruct sc; [apply H|done]. Qed.

  Section Body.
    Context (n : nat) (lg : option lang) (si : stack -> loc -> prog (stack * bytes)) (pi : stack -> loc -> act (stack * bytes)).
    Context (Hi : forall sc t, same (si sc t) (pi sc t)).
    Ltac go := repeat first [apply same_string | apply same_collection | apply same_data | apply same_bind; [|intros] | apply same_given | apply same_get | apply same_count | apply same_elem | apply same_set | apply same_show | apply same_value | apply same_see
      | apply same_ret | apply same_fail | apply same_out | apply Hi].
    Lemma same_run sc t : same (s_run si sc t) (p_run pi sc t).
    Proof using Hi. unfold s_run, p_run. go. match goal with x : (_ * _)%type |- _ => destruct x end. go. Qed.
    Lemma same_run_opt sc t : same (s_run_opt si sc t) (p_run_opt pi sc t).
    Proof using Hi. destruct t; [apply same_run|done]. Qed.
    Lemma same_reference sc t xid : same (s_reference F ord th n si sc t xid) (p_reference F ord th n pi sc t xid).
    Proof using Hi.
      assert (Hgen : forall template, same (r <~~ given (lookup_template th n t template); match r with None => Done (sc, []) | Some subt => s_run si sc subt end)
        (r <~ lift (lookup_template th n t template); match r with None => Ret (sc, []) | Some subt => p_run pi sc subt end)).
      { intros x. apply same_bind; [apply same_given|]. intros [y|]; [apply same_run|done]. }
      unfold s_reference, p_reference. destruct xid as [|a [|field [|prefix [|e xid]]]]; [apply Hgen|apply Hgen| | |apply Hgen].
      - apply same_bind; [apply same_given|]. intros [x|]; [|done]. apply same_bind; [apply same_non_nil; intros; apply same_data|]. intros v.
        apply same_bind; [apply same_see|]. intros [d|]; [|apply same_run]. go. match goal with x : (_ * _)%type |- _ => destruct x end. go.
      - apply same_bind; [apply same_non_nil; intros; apply same_string|]. intros v. apply same_bind; [apply same_given|]. intros r. apply same_run_opt.
    Qed.
    Lemma same_loop k : forall i sc t subid subt cl, same (s_loop th n si k i sc t subid subt cl) (p_loop th n pi k i sc t subid subt cl).
    Proof using Hi.
      induction k as [|k IH]; intros i sc t subid subt cl; [done|]. cbn [s_loop p_loop]. apply same_bind; [apply same_count|]. intros c. destruct (bool_decide _); [|done].
      apply same_bind; [apply same_given|]. intros r1. apply same_bind; [destruct r1; go|]. intros r. apply same_bind; [apply same_elem|]. intros [[d|]|]; [|done|done]. go.
      match goal with x : (_ * _)%type |- _ => destruct x end. go; [apply IH|]. match goal with x : (_ * list bytes)%type |- _ => destruct x end. done.
    Qed.
    Lemma same_range sc t data : same (s_range th n si sc t data) (p_range th n pi sc t data).
    Proof using Hi.
      unfold s_range, p_range. destruct (two_ids data) as [subdata subid]. apply same_bind; [apply same_given|]. intros [subt|]; [|done]. destruct sc as [xs|]; [|done].
      apply same_bind; [apply same_collection|]. intros cl. apply same_bind; [destruct cl; go|]. intros c. destruct cl as [l|].
      - destruct (bool_decide _); [apply same_loop|]. apply same_bind; [apply same_given|]. intros r. apply same_run.
      - apply same_bind; [apply same_given|]. intros r. apply same_run.
    Qed.
    Lemma same_condition sc t data : same (s_condition F ord th n si sc t data) (p_condition F ord th n pi sc t data).
    Proof using Hi.
      unfold s_condition, p_condition. destruct (two_ids data) as [subdata subid]. apply same_bind; [apply same_given|]. intros subt.
      apply same_bind; [destruct sc; go|]. intros v. apply same_bind.
      - destruct subt as [s|]; [|done]. destruct (is_nil v); [done|]. apply same_bind; [apply same_see|]. intros [d|].
        + go. match goal with x : (_ * _)%type |- _ => destruct x end. go.
        + apply same_bind; [apply same_value|]. intros [|a l]; [done|]. go. match goal with x : (_ * _)%type |- _ => destruct x end. go.
      - intros [[sc1 outs] subt1]. apply same_bind; [destruct (is_nil v); [done|apply same_tested]|]. intros [|]; [|done]. apply same_bind; [apply same_given|]. intros tmp.
        apply same_bind; [apply same_run_opt|]. intros [sc2 outs2]. done.
    Qed.
    Lemma same_param sc t p : same (s_param F ord th n lg si sc t p) (p_param F ord th n lg pi sc t p).
    Proof using Hi.
      unfold s_param, p_param. repeat match goal with |- same (if ?b then _ else _) _ => destruct b end; try done.
      - apply same_reference.
      - destruct sc; [|done]. go.
      - apply same_range.
      - apply same_condition.
      - destruct sc as [[|d xs]|]; try done. destruct (bool_decide _); [|done]. go.
    Qed.
    Lemma same_params ps : forall sc t, same (s_params F ord th n lg si sc t ps) (p_params F ord th n lg pi sc t ps).
    Proof using Hi.
      induction ps as [|p ps IH]; intros sc t; [done|]. cbn [s_params p_params]. apply same_bind; [apply same_param|]. intros [sc1 a].
      apply same_bind; [apply IH|]. intros [sc2 b]. done.
    Qed.
  End Body.
  Lemma same_injector n : forall lg sc t, same (s_injector F ord th n lg sc t) (p_injector F ord th n lg sc t).
  Proof.
    induction n as [|n IH]; intros lg sc t; [done|]. cbn [s_injector p_injector]. destruct (th !! t) as [T|]; [|done]. destruct (t_root T); [|done].
    apply same_bind; [apply same_params; intros; apply IH|]. intros [sc1 outs]. done.
  Qed.
  Lemma same_execute n t data : same (s_execute F ord langs th n t data) (p_execute F ord langs th n t data).
  Proof.
    unfold s_execute, p_execute. destruct data as [d|].
    - apply same_bind; [apply same_get|]. intros r. apply same_bind; [apply same_injector|]. intros [sc1 out]. done.
    - apply same_bind; [apply same_injector|]. intros [sc1 out]. done.
  Qed.
  Lemma solo_execute n t data h : solo (s_execute F ord langs th n t data) h = execute F ord langs th n h t data.
  Proof. rewrite same_execute. apply alone_execute. Qed.
End Same.

(** A property of programs that holds of the methods and is kept by sequencing holds of executions. *)
Section Closed.
  Context (F : golib) (ord : heap -> gmap bytes value -> list (bytes * value)) (langs : nat -> option lang) (th : theap).
  Context (P : forall A, prog A -> Prop).
  Context (Pbind : forall A C (m : prog A) (f : A -> prog C), P A m -> (forall a, P C (f a)) -> P C (pbind m f)).
  Context (Pdone : forall A (a : A), P A (Done a)) (Pcrash : forall A, P A Crash) (Pshort : forall A, P A Short).
  Context (Psee : forall A (f : heap -> A), P A (see (fun h => Done (f h)))).
  Context (Pget : forall n l key, P _ (w_get n l key)) (Pcount : forall c, P _ (w_count c)) (Pelem : forall c i, P _ (w_elem c i)).
  Context (Pset : forall n l z, P _ (w_set n l (B ".counter") (VInt KInt z))).
  Context (Pshow : forall n go l, P _ (w_show F ord n go l)) (Pvalue : forall n v, P _ (w_value F (w_show F ord n) false v)).
  Local Ltac one := first [apply Pbind; [|intros] | apply Pdone | apply Pcrash | apply Pshort | apply Psee | apply Pget | apply Pcount | apply Pelem | apply Pset | apply Pshow | apply Pvalue].
  Lemma closed_given {A} (r : outcome A) : P A (given r). Proof using Pdone Pcrash Pshort. destruct r; one. Qed.
  Lemma closed_data n xs key : P _ (s_data n xs key).
  Proof using All. unfold s_data. induction (reverse xs) as [|d back IH]; cbn [s_search]; [one|]. one; [one|]. destruct a; [one|exact IH]. Qed.
  Lemma closed_string n xs key : P _ (s_string F ord n xs key).
  Proof using All. unfold s_string. one; [apply closed_data|]. destruct a as [[]|]; one. Qed.
  Lemma closed_collection n xs key : P _ (s_collection n xs key).
  Proof using All. unfold s_collection. one; [apply closed_data|]. one. Qed.
  Lemma closed_non_nil {A} sc (f : list loc -> prog A) : (forall xs, P _ (f xs)) -> P _ (s_non_nil sc f).
  Proof using Pcrash. intros H. destruct sc; [apply H|apply Pcrash]. Qed.
  Section Body.
    Context (n : nat) (lg : option lang) (si : stack -> loc -> prog (stack * bytes)) (Hi : forall sc t, P _ (si sc t)).
    Local Ltac go := repeat first [apply closed_string | apply closed_collection | apply closed_data | one | apply closed_given | apply Hi].
    Lemma closed_run sc t : P _ (s_run si sc t).
    Proof using All. unfold s_run. go. destruct a. go. Qed.
    Lemma closed_run_opt sc t : P _ (s_run_opt si sc t).
    Proof using All. destruct t; [apply closed_run|]. cbn [s_run_opt]. go. Qed.
    Lemma closed_reference sc t xid : P _ (s_reference F ord th n si sc t xid).
    Proof using All.
      assert (Hgen : forall template, P _ (r <~~ given (lookup_template th n t template); match r with None => Done (sc, []) | Some subt => s_run si sc subt end)).
      { intros x. apply Pbind; [apply closed_given|]. intros [y|]; [apply closed_run|go]. }
      unfold s_reference. destruct xid as [|a [|field [|prefix [|e xid]]]]; [apply Hgen|apply Hgen| | |apply Hgen].
      - apply Pbind; [apply closed_given|]. intros [x|]; [|go]. apply Pbind; [apply closed_non_nil; intros; apply closed_data|]. intros v.
        apply Pbind; [apply Psee|]. intros [d|]; [|apply closed_run]. apply Pbind; [apply closed_given|]. intros sc1. apply Pbind; [apply Hi|]. intros [sc2 out]. go.
      - apply Pbind; [apply closed_non_nil; intros; apply closed_string|]. intros v. apply Pbind; [apply closed_given|]. intros r. apply closed_run_opt.
    Qed.
    Lemma closed_loop k : forall i sc t subid subt cl, P _ (s_loop th n si k i sc t subid subt cl).
    Proof using All.
      induction k as [|k IH]; intros i sc t subid subt cl; [cbn [s_loop]; go|]. cbn [s_loop]. apply Pbind; [apply Pcount|]. intros c. destruct (bool_decide _); [|go].
      apply Pbind; [apply closed_given|]. intros r1. apply Pbind; [destruct r1; go|]. intros r. apply Pbind; [apply Pelem|]. intros [[d|]|]; [|go|go].
      apply Pbind; [apply Pset|]. intros _. apply Pbind; [apply closed_given|]. intros sc1. apply Pbind; [apply Hi|]. intros [sc2 out]. apply Pbind; [apply closed_given|]. intros sc3.
      apply Pbind; [apply IH|]. intros [sc4 outs]. go.
    Qed.
    Lemma closed_range sc t data : P _ (s_range th n si sc t data).
    Proof using All.
      unfold s_range. destruct (two_ids data) as [subdata subid]. apply Pbind; [apply closed_given|]. intros [subt|]; [|go]. destruct sc as [xs|]; [|go].
      apply Pbind; [apply closed_collection|]. intros cl. apply Pbind; [destruct cl; go|]. intros c. destruct cl as [l|].
      - destruct (bool_decide _); [apply closed_loop|]. apply Pbind; [apply closed_given|]. intros r. apply closed_run.
      - apply Pbind; [apply closed_given|]. intros r. apply closed_run.
    Qed.
    Lemma closed_condition sc t data : P _ (s_condition F ord th n si sc t data).
    Proof using All.
      unfold s_condition. destruct (two_ids data) as [subdata subid]. apply Pbind; [apply closed_given|]. intros subt.
      apply Pbind; [destruct sc; go|]. intros v. apply Pbind.
      - destruct subt as [s|]; [|go]. destruct (is_nil v); [go|]. apply Pbind; [apply Psee|]. intros [d|].
        + apply Pbind; [apply closed_given|]. intros sc1. apply Pbind; [apply closed_given|]. intros tmp. apply Pbind; [apply Hi|]. intros [sc2 out]. go.
        + apply Pbind; [apply Pvalue|]. intros [|a l]; [go|]. apply Pbind; [apply closed_given|]. intros tmp. apply Pbind; [apply Hi|]. intros [sc2 out]. go.
      - intros [[sc1 outs] subt1]. apply Pbind; [destruct (is_nil v); go|]. intros [|]; [|go]. apply Pbind; [apply closed_given|]. intros tmp.
        apply Pbind; [apply closed_run_opt|]. intros [sc2 outs2]. go.
    Qed.
    Lemma closed_param sc t p : P _ (s_param F ord th n lg si sc t p).
    Proof using All.
      unfold s_param. repeat match goal with |- P _ (if ?b then _ else _) => destruct b end; try apply Pdone.
      - apply closed_reference.
      - destruct sc; go.
      - apply closed_range.
      - apply closed_condition.
      - destruct sc as [[|d xs]|]; try apply Pdone. destruct (bool_decide _); go.
    Qed.
    Lemma closed_params ps : forall sc t, P _ (s_params F ord th n lg si sc t ps).
    Proof using All.
      induction ps as [|p ps IH]; intros sc t; cbn [s_params]; [go|]. apply Pbind; [apply closed_param|]. intros [sc1 a].
      apply Pbind; [apply IH|]. intros [sc2 b]. go.
    Qed.
  End Body.
  Lemma closed_injector n : forall lg sc t, P _ (s_injector F ord th n lg sc t).
  Proof using All.
    induction n as [|n IH]; intros lg sc t; cbn [s_injector]; [one|]. destruct (th !! t) as [T|]; [|one]. destruct (t_root T); [|one].
    apply Pbind; [apply closed_params; intros; apply IH|]. intros [sc1 outs]. one.
  Qed.
  Lemma closed_execute n t data : P _ (s_execute F ord langs th n t data).
  Proof using All.
    unfold s_execute. destruct data as [d|].
    - apply Pbind; [apply Pget|]. intros r. apply Pbind; [apply closed_injector|]. intros [sc1 out]. one.
    - apply Pbind; [apply closed_injector|]. intros [sc1 out]. one.
  Qed.
End Closed.
