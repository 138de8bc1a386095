(** * Lock skeletons: the lock operations and the shared variables touched by each method.

    A skeleton keeps, of the text of a method, only the operations on the mutex and the
    accesses to the shared variables, in order; data dependent control flow becomes a
    free choice ([Alt]) or a free repetition ([Star]), so that every real execution
    follows one of its paths.  Threads interleave instruction by instruction. *)
From Verif Require Import GoBase.

Section Skel.
  Context {V : Type}.      (* the shared variables *)

  Inductive instr := Lock | Unlock | RLock | RUnlock | Rd (x : V) | Wr (x : V).
  Inductive cmd := Skip | Do (i : instr) | Seq (a b : cmd) | Alt (a b : cmd) | Star (a : cmd).

  (** The instruction sequences a skeleton can execute. *)
  Inductive path : cmd -> list instr -> Prop :=
  | p_skip : path Skip []
  | p_instr i : path (Do i) [i]
  | p_seq a b p q : path a p -> path b q -> path (Seq a b) (p ++ q)
  | p_left a b p : path a p -> path (Alt a b) p
  | p_right a b p : path b p -> path (Alt a b) p
  | p_done a : path (Star a) []
  | p_more a p q : path a p -> path (Star a) q -> path (Star a) (p ++ q).

  (** sync.RWMutex: the writer inside, the writer that has announced itself and waits for
      the readers (no new reader enters then), the readers inside with repetition. *)
  Record rw := Rw { r_writer : option nat; r_pending : option nat; r_readers : list nat }.
  Record state := State { s_lock : rw; s_code : nat -> list instr }.

  Definition setc (f : nat -> list instr) (t : nat) (p : list instr) : nat -> list instr :=
    fun t' => if decide (t' = t) then p else f t'.
  Fixpoint remove1 (t : nat) (l : list nat) : list nat :=
    match l with [] => [] | x :: l' => if decide (x = t) then l' else x :: remove1 t l' end.

  Inductive act :=
  | Begin (t : nat) (p : list instr)    (* thread [t], idle, starts a call that will follow [p] *)
  | Go (t : nat).                       (* thread [t] executes (a part of) its next instruction *)

  Definition step (s : state) (a : act) : option state :=
    let k := s_lock s in
    match a with
    | Begin t p => match s_code s t with [] => Some (State k (setc (s_code s) t p)) | _ => None end
    | Go t =>
        match s_code s t with
        | [] => None
        | i :: rest =>
            let next k' := Some (State k' (setc (s_code s) t rest)) in
            match i with
            | Rd _ | Wr _ => next k
            | RLock => match r_writer k, r_pending k with
                       | None, None => next (Rw None None (t :: r_readers k))
                       | _, _ => None
                       end
            | RUnlock => if decide (t ∈ r_readers k) then next (Rw (r_writer k) (r_pending k) (remove1 t (r_readers k))) else None
            | Lock => match r_writer k, r_pending k with
                      | None, None => Some (State (Rw None (Some t) (r_readers k)) (s_code s))     (* announce *)
                      | None, Some t' => if decide (t' = t /\ r_readers k = []) then next (Rw (Some t) None []) else None
                      | _, _ => None
                      end
            | Unlock => if decide (r_writer k = Some t) then next (Rw None (r_pending k) (r_readers k)) else None
            end
        end
    end.

  Fixpoint exec (s : state) (acts : list act) : option state :=
    match acts with
    | [] => Some s
    | a :: acts' => match step s a with None => None | Some s' => exec s' acts' end
    end.
  Definition start : state := State (Rw None None []) (fun _ => []).

  (** ** What we want *)
  (** Two threads stand at accesses to [x], one of them a write. *)
  Definition at_read (s : state) (t : nat) (x : V) : Prop := exists rest, s_code s t = Rd x :: rest.
  Definition at_write (s : state) (t : nat) (x : V) : Prop := exists rest, s_code s t = Wr x :: rest.
  Definition race (s : state) (x : V) : Prop :=
    exists t1 t2, t1 <> t2 /\ at_write s t1 x /\ (at_read s t2 x \/ at_write s t2 x).
  (** A thread asks for the lock while holding it. *)
  Definition self_block (s : state) (t : nat) : Prop :=
    (exists rest, s_code s t = Lock :: rest \/ s_code s t = RLock :: rest) /\
    (r_writer (s_lock s) = Some t \/ t ∈ r_readers (s_lock s)).
  Definition stuck (s : state) : Prop :=
    (exists t, s_code s t <> []) /\ forall t, s_code s t <> [] -> step s (Go t) = None.

  (** Every call started is a path of one of the methods. *)
  Definition calls_of (methods : list cmd) (acts : list act) : Prop :=
    Forall (fun a => match a with Begin _ p => exists c, c ∈ methods /\ path c p | Go _ => True end) acts.

  (** ** The discipline: locks are balanced, never nested, guarded variables are read
      under a lock and written under the write lock. *)
  Inductive held := HNone | HRead | HWrite.
  Definition follow1 (guarded : V -> bool) (h : held) (i : instr) : option held :=
    match i, h with
    | Lock, HNone => Some HWrite
    | Unlock, HWrite => Some HNone
    | RLock, HNone => Some HRead
    | RUnlock, HRead => Some HNone
    | Rd x, _ => if guarded x && match h with HNone => true | _ => false end then None else Some h
    | Wr x, _ => if guarded x && match h with HWrite => false | _ => true end then None else Some h
    | _, _ => None
    end.
  Fixpoint follow (guarded : V -> bool) (h : held) (p : list instr) : option held :=
    match p with
    | [] => Some h
    | i :: p' => match follow1 guarded h i with None => None | Some h' => follow guarded h' p' end
    end.
  Global Instance held_eq_dec : EqDecision held.
  Proof. solve_decision. Defined.
  Fixpoint check (guarded : V -> bool) (h : held) (c : cmd) : option held :=
    match c with
    | Skip => Some h
    | Do i => follow1 guarded h i
    | Seq a b => match check guarded h a with None => None | Some h' => check guarded h' b end
    | Alt a b => match check guarded h a, check guarded h b with
                 | Some h1, Some h2 => if decide (h1 = h2) then Some h1 else None
                 | _, _ => None
                 end
    | Star a => match check guarded h a with Some h1 => if decide (h1 = h) then Some h else None | None => None end
    end.
  Definition disciplined (guarded : V -> bool) (c : cmd) : bool :=
    bool_decide (check guarded HNone c = Some HNone).
End Skel.
Arguments instr : clear implicits.
Arguments cmd : clear implicits.
Arguments state : clear implicits.
Arguments act : clear implicits.

(** Instructions and commands in sequence. *)
Definition seq {V} (cs : list (cmd V)) : cmd V := foldr Seq Skip cs.
Coercion Do : instr >-> cmd.
Definition opt {V} (c : cmd V) : cmd V := Alt c Skip.
