(** * Objects protected by a sync.RWMutex, at the granularity of single memory actions.

    A method made of one critical section is: Lock or RLock, a sequence of actions on the
    shared memory, Unlock or RUnlock (deferred or not).  Any number of threads interleave
    action by action.  The lock follows sync.RWMutex: a writer first announces itself,
    which keeps new readers out, then waits for the present readers to leave. *)
From Verif Require Import GoBase.

Section LockModel.
  Context {S L : Type}.

  (** One action: reads and writes the shared memory and the local variables of the
      call; [None] is a run time panic. *)
  Definition act := S -> L -> option (S * L).

  Record method := Method {
    m_write : bool;         (* Lock (true) or RLock (false) *)
    m_defer : bool;         (* is the unlock deferred, that is, also run on a panic? *)
    m_body : list act;      (* the critical section *)
    m_init : L              (* arguments *)
  }.

  (** What the critical section does when run alone; [None]: panic. *)
  Fixpoint run_body (b : list act) (s : S) (l : L) : S * option L :=
    match b with
    | [] => (s, Some l)
    | a :: b' => match a s l with Some (s', l') => run_body b' s' l' | None => (s, None) end
    end.

  (** A reader must not write. *)
  Definition method_ok (m : method) : Prop :=
    m_write m = false -> Forall (fun a => forall s l s' l', a s l = Some (s', l') -> s' = s) (m_body m).

  Inductive tstate :=
  | TIdle
  | TReq (m : method)                          (* called, has not asked for the lock yet *)
  | TWait (m : method)                         (* writer, announced, waiting for the readers *)
  | TCS (m : method) (rest : list act) (l : L) (* inside the critical section *)
  | TDone (m : method) (r : option L)          (* lock released, about to return or propagate the panic *)
  | TDead (m : method).                        (* panicked without releasing the lock *)

  Record lock := Lk { lk_w : option nat; lk_p : option nat; lk_r : gset nat }.
  Record config := Config { c_mem : S; c_lock : lock; c_thr : nat -> tstate }.

  Definition upd (f : nat -> tstate) (t : nat) (x : tstate) : nat -> tstate :=
    fun t' => if decide (t' = t) then x else f t'.

  Inductive action := AInv (t : nat) (m : method) | AAnnounce (t : nat) | AAcquire (t : nat)
                    | ABody (t : nat) | ARelease (t : nat) | ARet (t : nat).
  Inductive label := LInv (t : nat) (m : method) | LAcq (t : nat) (m : method)
                   | LTau (t : nat) | LRet (t : nat) (m : method) (r : option L).

  Definition release (k : lock) (m : method) (t : nat) : lock :=
    if m_write m then Lk None (lk_p k) (lk_r k) else Lk (lk_w k) (lk_p k) (lk_r k ∖ {[t]}).

  Definition step (g : config) (a : action) : option (config * label) :=
    let k := c_lock g in
    match a with
    | AInv t m =>
        match c_thr g t with
        | TIdle => Some (Config (c_mem g) k (upd (c_thr g) t (TReq m)), LInv t m)
        | _ => None
        end
    | AAnnounce t =>
        match c_thr g t with
        | TReq m => if decide (m_write m = true /\ lk_w k = None /\ lk_p k = None) then
                      Some (Config (c_mem g) (Lk None (Some t) (lk_r k)) (upd (c_thr g) t (TWait m)), LTau t)
                    else None
        | _ => None
        end
    | AAcquire t =>
        match c_thr g t with
        | TReq m => if decide (m_write m = false /\ lk_w k = None /\ lk_p k = None) then
                      Some (Config (c_mem g) (Lk None None ({[t]} ∪ lk_r k)) (upd (c_thr g) t (TCS m (m_body m) (m_init m))), LAcq t m)
                    else None
        | TWait m => if decide (lk_r k = ∅) then
                      Some (Config (c_mem g) (Lk (Some t) None ∅) (upd (c_thr g) t (TCS m (m_body m) (m_init m))), LAcq t m)
                    else None
        | _ => None
        end
    | ABody t =>
        match c_thr g t with
        | TCS m (a :: rest) l =>
            match a (c_mem g) l with
            | Some (s', l') => Some (Config s' k (upd (c_thr g) t (TCS m rest l')), LTau t)
            | None => if m_defer m then Some (Config (c_mem g) (release k m t) (upd (c_thr g) t (TDone m None)), LTau t)
                      else Some (Config (c_mem g) k (upd (c_thr g) t (TDead m)), LTau t)
            end
        | _ => None
        end
    | ARelease t =>
        match c_thr g t with
        | TCS m [] l => Some (Config (c_mem g) (release k m t) (upd (c_thr g) t (TDone m (Some l))), LTau t)
        | _ => None
        end
    | ARet t =>
        match c_thr g t with
        | TDone m r => Some (Config (c_mem g) k (upd (c_thr g) t TIdle), LRet t m r)
        | _ => None
        end
    end.

  Fixpoint exec (g : config) (acts : list action) : option (config * list label) :=
    match acts with
    | [] => Some (g, [])
    | a :: acts' =>
        match step g a with
        | None => None
        | Some (g1, l) => match exec g1 acts' with None => None | Some (g2, tr) => Some (g2, l :: tr) end
        end
    end.

  Definition init (s : S) : config := Config s (Lk None None ∅) (fun _ => TIdle).

  (** ** The atomic specification: methods run one after the other. *)
  Fixpoint seq_run (s : S) (ms : list (nat * method)) : S * list (nat * option L) :=
    match ms with
    | [] => (s, [])
    | (t, m) :: ms' =>
        let '(s1, r) := run_body (m_body m) s (m_init m) in
        let '(s2, rs) := seq_run s1 ms' in (s2, (t, r) :: rs)
    end.

  (** The order of lock acquisitions, and what each thread returned. *)
  Definition acquisitions (tr : list label) : list (nat * method) :=
    omap (fun l => match l with LAcq t m => Some (t, m) | _ => None end) tr.
  Definition returns (t : nat) (tr : list label) : list (option L) :=
    omap (fun l => match l with LRet t' _ r => if decide (t' = t) then Some r else None | _ => None end) tr.
  Definition results (t : nat) (rs : list (nat * option L)) : list (option L) :=
    omap (fun x => if decide (x.1 = t) then Some x.2 else None) rs.

  (** Calls of one thread: start, one acquisition, return. *)
  Inductive phase := PIdle | PCalled (m : method) | PAcquired (m : method).
  Definition phase_step (t : nat) (p : option phase) (l : label) : option phase :=
    match p, l with
    | Some PIdle, LInv t' m => if decide (t' = t) then Some (PCalled m) else p
    | Some (PCalled m), LAcq t' m' => if decide (t' = t) then Some (PAcquired m) else p
    | Some (PAcquired m), LRet t' m' _ => if decide (t' = t) then Some PIdle else p
    | Some _, LTau _ => p
    | Some _, (LInv t' _ | LAcq t' _ | LRet t' _ _) => if decide (t' = t) then None else p
    | None, _ => None
    end.
  Definition well_bracketed (t : nat) (tr : list label) : Prop :=
    fold_left (phase_step t) tr (Some PIdle) <> None.
End LockModel.
Arguments act : clear implicits.
Arguments method : clear implicits.
Arguments config : clear implicits.
Arguments action : clear implicits.
Arguments label : clear implicits.
