(** * Property theorems about datasets whose map is nil (C100). *)
From Verif Require Import GoBase GoStrings DatasetModel LangModel DatasetSpec DatasetProofs3 TemplateModel RenderProofs10
  NilModel NilSpec NilProofs NilProofs2.
Local Open Scope Z_scope.

(** ** C100 *)
(** One call, made through the wrappers [ws] on the dataset [x]: it waits exactly when the lock of one of them is taken; otherwise it
    has the effect of the call, and leaves the locks of all its wrappers taken exactly when it panics. *)
Theorem C100_call : forall N h l ws x m, passes h l ws x -> h !! x = Some (ODs m) -> forall n K c h' K' a,
  perform N n h K l c = Some (h', K', a) ->
  (a = ABlocks /\ h' = h /\ K' = K /\ exists w, w ∈ ws /\ w ∈ K) \/
  ((forall w, w ∈ ws -> w ∉ K) /\ effect N h x m c h' a /\ forall w, w ∈ K' <-> w ∈ K \/ (w ∈ ws /\ a = APanic)).
Proof. exact perform_spec. Qed.
Print Assumptions C100_call.
Theorem C100_call_ends : forall N h l ws x, passes h l ws x -> forall n K c, (length ws < n)%nat -> is_Some (perform N n h K l c).
Proof. exact perform_enough. Qed.
Print Assumptions C100_call_ends.
(** A wrapper that wraps nothing: every call panics, a read releases its locks, Set and Del keep those of all the wrappers. *)
Theorem C100_no_data : forall N h l ws, hollow h l ws -> forall n K c, (length ws <= n)%nat -> exists K' a, perform N n h K l c = Some (h, K', a) /\
  ((a = ABlocks /\ K' = K /\ exists w, w ∈ ws /\ w ∈ K) \/
   (a = APanic /\ (forall w, w ∈ ws -> w ∉ K) /\ forall w, w ∈ K' <-> w ∈ K \/ (w ∈ ws /\ forall k, c <> CGet k))).
Proof. exact perform_hollow. Qed.
Print Assumptions C100_no_data.
(** A history of calls with recovered panics: the nil maps stay nil; exactly the stores into them panic; and a call waits for ever
    exactly when such a store went through one of its wrappers before. *)
Theorem C100_history : forall N n h cs h' K' r, nil_maps N h -> (forall l c, (l, c) ∈ cs -> exists ws x, passes h l ws x) ->
  perform_all N n h ∅ cs = Some (h', K', r) ->
  nil_maps N h' /\ (length r <= length cs)%nat /\ (length r < length cs -> last r = Some ABlocks)%nat /\
  (forall i, (i < length r)%nat -> (r !! i = Some ABlocks <-> waits N h cs i) /\
     (r !! i = Some APanic <-> ~ waits N h cs i /\ exists ws, nil_store N h cs i ws)).
Proof. exact history. Qed.
Print Assumptions C100_history.
(** An execution over data with nil maps returns a text exactly when the one with empty maps in their place does and touches none of
    them, and then it is the same text; when it touches one, it panics. *)
Theorem C100_execute : forall N F ord langs th n h t data h' out, nil_maps N h ->
  nil_execute N F ord langs th n h t data = Ok (h', out) <-> execute F ord langs th n h t data = Ok (h', out) /\ nil_maps N h'.
Proof. exact execute_ok. Qed.
Print Assumptions C100_execute.
Theorem C100_execute_panics : forall N F ord langs th n h t data, nil_maps N h ->
  (forall h' out, execute F ord langs th n h t data = Ok (h', out) -> ~ nil_maps N h' -> nil_execute N F ord langs th n h t data = Panic) /\
  (execute F ord langs th n h t data = Panic -> nil_execute N F ord langs th n h t data = Panic).
Proof. exact execute_panics. Qed.
Print Assumptions C100_execute_panics.
(** A clone has no nil map in it. *)
Theorem C100_clone : forall ord n h l h' l' N x, order_ok ord -> complete h l -> clone ord n h l = Ok (h', l') -> nil_maps N h ->
  reach h' l' x -> x ∉ N.
Proof. exact clone_made. Qed.
Print Assumptions C100_clone.

(** 1: the data; 2: its collection c, of the dataset 3 with a nil map and 4; 5: a wrapper of 3; 6: a wrapper of 5; 7: a wrapper of 4. *)
Definition nils : heap := list_to_map
  [(1%positive, ds [("c"%string, VRef 2); ("d"%string, VRef 3); ("n"%string, VStr (B "N"))]);
   (2%positive, OColl [Some 3%positive; Some 4%positive]); (3%positive, ODs ∅); (4%positive, ds [("n"%string, VStr (B "four"))]);
   (5%positive, OTs (Some 3%positive)); (6%positive, OTs (Some 5%positive)); (7%positive, OTs (Some 4%positive))].
Definition nil_page F (s : string) : outcome bytes :=
  text_of (nil_execute {[3%positive]} F ord0 (fun _ => None) (page s).1 30 nils (page s).2 (Some 1%positive)).
(** A loop over the collection panics: only the counter is stored. *)
Theorem C100_loop_refuted : forall F,
  text_of (run F ord0 (fun _ => None) "@@c:a@@[[a]]({{n}})[[]]" nils (Some 1%positive)) = Ok (B "(N)(four)") /\
  nil_page F "@@c:a@@[[a]]({{n}})[[]]" = Panic.
Proof. intros F. split; vm_compute; reflexivity. Qed.
Print Assumptions C100_loop_refuted.
(** A store through a wrapper panics with the lock held: the next call on it waits for ever. *)
Theorem C100_lock_released_refuted : nil_maps {[3%positive]} nils /\
  snd <$> perform_all {[3%positive]} 5 nils ∅
    [(6%positive, CGet (B "a")); (3%positive, CSet (B "a") (VBool true)); (5%positive, CDel (B "a")); (7%positive, CSet (B "n") VNil);
     (7%positive, CGet (B "n")); (6%positive, CSet (B "a") VNil); (3%positive, CGet (B "a")); (5%positive, CGet (B "a")); (7%positive, CGet (B "n"))] =
  Some [AGot None; APanic; ADone; ADone; AGot (Some VNil); APanic; AGot None; ABlocks].
Proof. split; [|vm_compute; reflexivity]. intros x ->%elem_of_singleton. reflexivity. Qed.
Print Assumptions C100_lock_released_refuted.

(** Rendering that does not loop over it goes well. *)
Example C100_not_looped : forall F, nil_page F "{{n}}&&b:d&&?d[[b]]<{{n}}>[[]]" = Ok (B "N<N>?d").
Proof. intros F. vm_compute. reflexivity. Qed.
(** The clone of a dataset with a nil map takes a store. *)
Example C100_clone_stores : nset {[3%positive]} 9 nils 3 (B "a") VNil = Panic /\
  ('(h', l') <-! clone ord0 9 nils 3; h2 <-! nset {[3%positive]} 9 h' l' (B "a") (VBool true); dget 9 h2 l' (B "a")) = Ok (Some (VBool true)).
Proof. split; vm_compute; reflexivity. Qed.
Example C100_wrapped : passes nils 6 [6; 5]%positive 3 /\ effect {[3%positive]} nils 3 ∅ (CSet (B "a") VNil) nils APanic.
Proof.
  split; [|left; split_and!; try done; by apply elem_of_singleton].
  eapply ps_wrapper; [reflexivity|]. eapply ps_wrapper; [reflexivity|]. by eapply ps_here.
Qed.
(** 9 wraps 8, which wraps nothing: two reads panic, a Del panics and the next read waits for ever. *)
Example C100_hollow : let h : heap := {[ 8%positive := OTs None; 9%positive := OTs (Some 8%positive) ]} in hollow h 9 [9; 8]%positive /\
  snd <$> perform_all ∅ 5 h ∅ [(9, CGet (B "a")); (9, CGet (B "a")); (8, CDel (B "a")); (9, CGet (B "a"))]%positive = Some [APanic; APanic; APanic; ABlocks].
Proof. split; [eapply ho_wrapper; [reflexivity|]; by apply ho_here|]. by vm_compute. Qed.
