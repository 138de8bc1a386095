(** * Validators that call the cache, in the concurrent model (v2/xcache.go).

    Get and Verify call the Validator without the lock (lines 137, 248), so the function may call the
    cache.  To the cache, the calls the function makes are calls of another thread made while the thread
    that asked stands still: the validator of a call of thread [d] runs as thread [S d].  Its program may
    do everything: Flush, new keys, assignments of Maxitems and Expire, Gets and Verifies that ask the
    validator again. *)
From Verif Require Import GoBase CacheModel CacheConc SettingsSpec.
Local Open Scope Z_scope.

Section NestSpec.
  Context {D : Type} (dnil : D).

  (** The body of a validator: calls, whose answers it sees, assignments, and finally its verdict or a panic. *)
  Inductive vprog :=
  | Says (b : bool)
  | Panics
  | Do (c : call D) (next : result D -> vprog)
  | PutMax (z : Z) (next : vprog)
  | PutExpire (z : Z) (next : vprog).

  (** The field Validator is set. *)
  Definition validated (c : call D) : Prop :=
    match c with CGet _ v | CVerify v => is_Some v | _ => True end.

  (** [prog_runs F d p g acts g' w]: thread [d] runs the program [p] from [g] to [g'] by the actions [acts], and the
      verdict is [w]; [call_runs]: thread [d] makes a whole call; [steps_run]: thread [d] makes some steps
      of its call, and whenever it asks about a key and a creation time, thread [S d] runs the program of [F] for them. *)
  Inductive prog_runs (F : bytes -> Z -> vprog) : nat -> vprog -> config D -> list (action D) -> config D -> says -> Prop :=
  | pr_says d b g : prog_runs F d (Says b) g [] g (if b then Yes else No)
  | pr_panics d g : prog_runs F d Panics g [] g Crash
  | pr_do d c next g acts g1 r acts2 g2 w :
      call_runs F d c g acts g1 r -> r <> RPanic -> prog_runs F d (next r) g1 acts2 g2 w ->
      prog_runs F d (Do c next) g (acts ++ acts2) g2 w
  | pr_do_panic d c next g acts g1 : call_runs F d c g acts g1 RPanic -> prog_runs F d (Do c next) g acts g1 Crash
  | pr_max d z next g g1 l acts g2 w : cstep dnil g (AMax z) = Some (g1, l) -> prog_runs F d next g1 acts g2 w ->
      prog_runs F d (PutMax z next) g (AMax z :: acts) g2 w
  | pr_expire d z next g g1 l acts g2 w : cstep dnil g (AExpire z) = Some (g1, l) -> prog_runs F d next g1 acts g2 w ->
      prog_runs F d (PutExpire z next) g (AExpire z :: acts) g2 w
  with call_runs (F : bytes -> Z -> vprog) : nat -> call D -> config D -> list (action D) -> config D -> result D -> Prop :=
  | cr d c g g1 l acts g2 g3 r : validated c -> cstep dnil g (AInv d c) = Some (g1, l) -> steps_run F d g1 acts g2 ->
      cstep dnil g2 (ARet d) = Some (g3, LRet d c r) -> call_runs F d c g (AInv d c :: acts ++ [ARet d]) g3 r
  with steps_run (F : bytes -> Z -> vprog) : nat -> config D -> list (action D) -> config D -> Prop :=
  | sr_end d g : steps_run F d g [] g
  | sr_plain d g i g1 l acts g2 : asks g (AStep d i) = [] -> in_says i = None -> cstep dnil g (AStep d i) = Some (g1, l) -> steps_run F d g1 acts g2 ->
      steps_run F d g (AStep d i :: acts) g2
  | sr_ask d g i k z w acts0 g0 g1 l acts g2 :
      asks g (AStep d i) = [(d, k, z, w)] -> in_says i = Some w -> prog_runs F (S d) (F k z) g acts0 g0 w ->
      cstep dnil g0 (AStep d i) = Some (g1, l) -> steps_run F d g1 acts g2 ->
      steps_run F d g (acts0 ++ AStep d i :: acts) g2.

  (** Programs that do not panic and call Clean with legal percentages only. *)
  Definition legal (c : call D) : Prop := match c with CClean p => -100 <= p <= 100 | _ => True end.
  Inductive quiet : vprog -> Prop :=
  | q_says b : quiet (Says b)
  | q_do c next : legal c -> (forall r, quiet (next r)) -> quiet (Do c next)
  | q_max z next : quiet next -> quiet (PutMax z next)
  | q_expire z next : quiet next -> quiet (PutExpire z next).

  (** In the course of [acts], which start in [g], the validator of thread [d] ran for the key [k] and
      the creation time [z], and its verdict was [w]. *)
  Definition ran (F : bytes -> Z -> vprog) (d : nat) (g : config D) (acts : list (action D)) (k : bytes) (z : Z) (w : says) : Prop :=
    exists a1 a2 a3 ga gb tr, acts = a1 ++ a2 ++ a3 /\ exec dnil g a1 = Some (ga, tr) /\ prog_runs F (S d) (F k z) ga a2 gb w.
End NestSpec.
Arguments vprog D : clear implicits.
