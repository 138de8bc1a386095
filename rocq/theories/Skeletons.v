(** * The lock skeletons of the thread safe objects of xcore. *)
From Verif Require Import GoBase SkelModel.

(** ** XCache (v2/xcache.go).  The fields [ctime] and [data] of an entry are written once,
    before the entry is published, and are left out; so are the public configuration
    fields (Maxitems, Expire, Validator), which no method writes. *)
Inductive cvar := Items | Pile | EntryTtl | EntryRtime.
Notation cc := (cmd cvar).

(* v2/xcache.go:95-107 *)
Definition k_removeFromPile : cc := seq [Star (Rd Pile : cc); opt (seq [Rd Pile : cc; Wr Pile : cc])].
(* v2/xcache.go:198-227; the first loop runs if Expire != 0 *)
Definition k_mClean : cc :=
  seq [opt (seq [Star (seq [Rd Items : cc; opt (Wr Items)]); Rd Items : cc]);
       Rd Items : cc; Star (seq [Rd Pile : cc; Wr Items : cc]); Rd Pile : cc; Wr Pile : cc].
(* v2/xcache.go:64-78 *)
Definition k_Set : cc :=
  seq [Lock : cc; Rd Items : cc; Wr Items : cc; opt k_removeFromPile; Rd Pile : cc; Wr Pile : cc;
       opt (Rd Items); opt k_mClean; Unlock : cc].
(* v2/xcache.go:84-91 *)
Definition k_SetTTL : cc := seq [Lock : cc; Rd Items : cc; opt (seq [Rd Items : cc; Wr EntryTtl : cc]); Unlock : cc].
(* v2/xcache.go:110-115 *)
Definition k_mGet : cc := seq [RLock : cc; Rd Items : cc; RUnlock : cc].
(* v2/xcache.go:178-184 *)
Definition k_Del : cc := seq [Lock : cc; Wr Items : cc; k_removeFromPile; Unlock : cc].
(* v2/xcache.go:121-175 *)
Definition k_Get : cc :=
  seq [k_mGet;
       opt (seq [Rd EntryTtl : cc; opt (Rd EntryTtl);
                 Alt k_Del
                     (seq [Wr EntryRtime : cc; Lock : cc; k_removeFromPile; Rd Pile : cc; Wr Pile : cc; Unlock : cc])])].
(* v2/xcache.go:187-192 *)
Definition k_Count : cc := seq [RLock : cc; Rd Items : cc; RUnlock : cc].
(* v2/xcache.go:233-237 *)
Definition k_Clean : cc := seq [Lock : cc; k_mClean; Unlock : cc].
(* v2/xcache.go:242-264: the iteration over the map takes no lock *)
Definition k_Verify : cc := seq [k_Clean; opt (seq [Star (seq [Rd Items : cc; opt k_Del]); Rd Items : cc])].
(* v2/xcache.go:268-273 *)
Definition k_Flush : cc := seq [Lock : cc; Wr Items : cc; Unlock : cc].

Definition cache_methods : list cc := [k_Set; k_SetTTL; k_Get; k_Del; k_Count; k_Clean; k_Flush].
Definition cache_guarded (x : cvar) : bool := match x with Items | Pile => true | _ => false end.

(** ** XLanguage (v2/xlanguage.go) *)
Inductive lvar := LName | LLang | LEntries | LStatus.
Notation lc := (cmd lvar).
Definition l_LoadXMLString : lc :=    (* lines 92-124 *)
  seq [Wr LName : lc; Wr LLang : lc; Lock : lc; Star (seq [Wr LEntries : lc; Wr LStatus : lc]); Unlock : lc].
Definition l_LoadXMLString_err : lc := Skip.   (* lines 110-112 *)
Definition l_LoadString : lc := Star (seq [Lock : lc; Wr LEntries : lc; Unlock : lc]).   (* lines 148-178 *)
Definition l_SetName : lc := Wr LName.        (* lines 181-183 *)
Definition l_SetLanguage : lc := Wr LLang.    (* lines 186-188 *)
Definition l_GetName : lc := Rd LName.        (* lines 191-193 *)
Definition l_GetLanguage : lc := Rd LLang.    (* lines 196-198 *)
Definition l_Set : lc := seq [Lock : lc; Wr LEntries : lc; Unlock : lc].         (* lines 201-205 *)
Definition l_Get : lc := seq [RLock : lc; Rd LEntries : lc; RUnlock : lc].       (* lines 208-216 *)
Definition l_SetStatus : lc := seq [Lock : lc; Wr LStatus : lc; Unlock : lc].    (* lines 219-223 *)
Definition l_GetStatus : lc := seq [RLock : lc; Rd LStatus : lc; RUnlock : lc].  (* lines 226-234 *)
Definition l_Del : lc := seq [Lock : lc; Wr LEntries : lc; Wr LStatus : lc; Unlock : lc].   (* lines 237-242 *)
Definition l_GetEntries : lc := seq [RLock : lc; Star (Rd LEntries : lc); RUnlock : lc].    (* lines 245-253 *)
Definition l_GetXML : lc :=                   (* lines 256-266 *)
  seq [RLock : lc; Star (seq [Rd LEntries : lc; Rd LStatus : lc]); Rd LName : lc; Rd LLang : lc; RUnlock : lc].
Definition l_String : lc := seq [RLock : lc; Star (Rd LEntries : lc); RUnlock : lc].        (* lines 269-290 *)

Definition language_methods : list lc :=
  [l_LoadXMLString; l_LoadXMLString_err; l_LoadString; l_SetName; l_SetLanguage; l_GetName; l_GetLanguage; l_Set; l_Get;
   l_SetStatus; l_GetStatus; l_Del; l_GetEntries; l_GetXML; l_String].
Definition language_guarded (x : lvar) : bool := match x with LEntries | LStatus => true | _ => false end.

(** ** XDatasetCollectionTS (v2/xdatasetcollectionts.go); [tt] is the slice [data].
    Only executions without a panic. *)
Notation uc := (cmd unit).
Definition u_String : uc := seq [RLock : uc; Star (Rd tt : uc); RUnlock : uc].        (* lines 17-26 *)
Definition u_Push : uc := seq [Lock : uc; Rd tt : uc; Wr tt : uc; Unlock : uc].       (* Unshift, Push: lines 34-38, 50-54 *)
Definition u_Pop : uc := seq [Lock : uc; Rd tt : uc; Rd tt : uc; Wr tt : uc; Unlock : uc].  (* Shift, Pop: lines 41-47, 57-63 *)
Definition u_Count : uc := seq [RLock : uc; Rd tt : uc; RUnlock : uc].                (* Count, Get: lines 66-80 *)
Definition u_GetData : uc := seq [u_Count; Star u_Count].                             (* lines 83-97 *)
Definition u_Clone : uc := Star (Rd tt : uc).                                         (* lines 159-165: no lock *)
Definition collection_methods : list uc := [u_String; u_Push; u_Pop; u_Count; u_GetData].

(** ** XDatasetTS (v2/xdatasetts.go); [tt] is the wrapped dataset, which is not thread safe. *)
Definition d_write : uc := seq [Lock : uc; Wr tt : uc; Unlock : uc].                  (* Set, Del: lines 38-42, 140-144 *)
Definition d_read : uc := seq [RLock : uc; Rd tt : uc; RUnlock : uc].                 (* every getter, String, Clone: lines 24-35, 45-137, 147-153 *)
Definition datasetts_methods : list uc := [d_write; d_read].
(** Get with a path of [n] more segments that all lead back to the same XDatasetTS:
    lines 45-49, through v2/xdataset.go:79-81. *)
Fixpoint d_read_through (n : nat) : uc :=
  match n with O => d_read | S n' => seq [RLock : uc; Rd tt : uc; d_read_through n'; RUnlock : uc] end.

(** ** Building paths: [walk n c choices] follows the choices. *)
Fixpoint walk {V} (n : nat) (c : cmd V) (bs : list bool) : option (list (instr V) * list bool) :=
  match n with
  | O => None
  | S n' =>
    match c with
    | Skip => Some ([], bs)
    | Do i => Some ([i], bs)
    | Seq a b => match walk n' a bs with
                 | Some (p, bs1) => match walk n' b bs1 with Some (q, bs2) => Some (p ++ q, bs2) | None => None end
                 | None => None
                 end
    | Alt a b => match bs with true :: bs' => walk n' a bs' | false :: bs' => walk n' b bs' | [] => None end
    | Star a => match bs with
                | true :: bs' => match walk n' a bs' with
                                 | Some (p, bs1) => match walk n' (Star a) bs1 with Some (q, bs2) => Some (p ++ q, bs2) | None => None end
                                 | None => None
                                 end
                | false :: bs' => Some ([], bs')
                | [] => None
                end
    end
  end.
Lemma walk_path {V} n (c : cmd V) bs p bs' : walk n c bs = Some (p, bs') -> path c p.
Proof.
  revert c bs p bs'. induction n as [|n IH]; intros c bs p bs' Hw; [done|]. destruct c; simpl in Hw.
  - simplify_eq. constructor.
  - simplify_eq. constructor.
  - destruct (walk n c1 bs) as [[p1 b1]|] eqn:E1; [|done]. destruct (walk n c2 b1) as [[p2 b2]|] eqn:E2; [|done].
    simplify_eq. constructor; eauto.
  - destruct bs as [|[] bs]; [done|apply p_left|apply p_right]; eauto.
  - destruct bs as [|[] bs]; [done| |simplify_eq; constructor].
    destruct (walk n c bs) as [[p1 b1]|] eqn:E1; [|done]. destruct (walk n (Star c) b1) as [[p2 b2]|] eqn:E2; [|done].
    simplify_eq. constructor; eauto.
Qed.
Definition a_path {V} (c : cmd V) (bs : list bool) : list (instr V) :=
  match walk 100 c bs with Some (p, _) => p | None => [] end.
Definition a_path_ok {V} (c : cmd V) (bs : list bool) : bool :=
  match walk 100 c bs with Some (_, []) => true | _ => false end.
Lemma a_path_path {V} (c : cmd V) bs : a_path_ok c bs = true -> path c (a_path c bs).
Proof.
  unfold a_path_ok, a_path. intros H. destruct (walk 100 c bs) as [[p b]|] eqn:E; [|done]. by eapply walk_path.
Qed.

(** ** Schedules that race *)
Ltac schedule :=
  repeat (apply Forall_cons; split; [lazymatch goal with
    | |- exists c, _ /\ path c (a_path ?m _) => exists m; split; [by repeat first [left|right]|by apply a_path_path]
    | |- _ => exact Logic.I end|]); try apply Forall_nil; try done.

(** Verify at its unlocked read of the map, Set at its write. *)
Definition verify_acts : list (act cvar) :=
  [Begin 0 (a_path k_Verify [false; false; true; true; false; false]);
   Go 0; Go 0; Go 0; Go 0; Go 0; Go 0;
   Begin 1 (a_path k_Set [false; false; false]); Go 1; Go 1; Go 1].
Lemma verify_race :
  exists acts s, calls_of (k_Verify :: cache_methods) acts /\ exec start acts = Some s /\
    at_read s 0 Items /\ at_write s 1 Items /\ race s Items.
Proof.
  exists verify_acts.
  assert (H : match exec start verify_acts with Some s => at_read s 0 Items /\ at_write s 1 Items | None => False end).
  { vm_compute. split; eexists; reflexivity. }
  destruct (exec start verify_acts) as [s|]; [|done]. destruct H as [H1 H2]. exists s. split_and!; try done.
  - schedule.
  - exists 1, 0. auto.
Qed.

(** Two Gets at their unlocked write of the read time. *)
Definition rtime_acts : list (act cvar) :=
  let p := a_path k_Get [true; false; false; false; false] in
  [Begin 0 p; Go 0; Go 0; Go 0; Go 0; Begin 1 p; Go 1; Go 1; Go 1; Go 1].
Lemma rtime_race :
  exists acts s, calls_of [k_Get] acts /\ exec start acts = Some s /\ race s EntryRtime.
Proof.
  exists rtime_acts.
  assert (H : match exec start rtime_acts with Some s => at_write s 0 EntryRtime /\ at_write s 1 EntryRtime | None => False end).
  { vm_compute. split; eexists; reflexivity. }
  destruct (exec start rtime_acts) as [s|] eqn:E; [|done]. destruct H as [H1 H2]. exists s. split_and!; try done.
  - unfold rtime_acts. cbv zeta. schedule.
  - exists 0, 1. auto.
Qed.
(** Get at its unlocked read of the TTL, SetTTL at its write. *)
Definition ttl_acts : list (act cvar) :=
  [Begin 0 (a_path k_Get [true; false; false; false; false]); Go 0; Go 0; Go 0;
   Begin 1 (a_path k_SetTTL [true]); Go 1; Go 1; Go 1; Go 1].
Lemma ttl_race :
  exists acts s, calls_of [k_Get; k_SetTTL] acts /\ exec start acts = Some s /\ race s EntryTtl.
Proof.
  exists ttl_acts.
  assert (H : match exec start ttl_acts with Some s => at_read s 0 EntryTtl /\ at_write s 1 EntryTtl | None => False end).
  { vm_compute. split; eexists; reflexivity. }
  destruct (exec start ttl_acts) as [s|] eqn:E; [|done]. destruct H as [H1 H2]. exists s. split_and!; try done.
  - unfold ttl_acts. schedule.
  - exists 1, 0. auto.
Qed.
(** GetXML reads the name (under the read lock) while SetName writes it. *)
Definition name_acts : list (act lvar) :=
  [Begin 0 (a_path l_GetXML [false]); Go 0; Begin 1 (a_path l_SetName [])].
Lemma name_race :
  exists acts s, calls_of [l_GetXML; l_SetName] acts /\ exec start acts = Some s /\ race s LName.
Proof.
  exists name_acts.
  assert (H : match exec start name_acts with Some s => at_read s 0 LName /\ at_write s 1 LName | None => False end).
  { vm_compute. split; eexists; reflexivity. }
  destruct (exec start name_acts) as [s|] eqn:E; [|done]. destruct H as [H1 H2]. exists s. split_and!; try done.
  - unfold name_acts. schedule.
  - exists 1, 0. auto.
Qed.
Definition loadxml_acts : list (act lvar) :=
  [Begin 0 (a_path l_GetXML [false]); Go 0; Begin 1 (a_path l_LoadXMLString [false])].
Lemma loadxml_race :
  exists acts s, calls_of [l_GetXML; l_LoadXMLString] acts /\ exec start acts = Some s /\ race s LName.
Proof.
  exists loadxml_acts.
  assert (H : match exec start loadxml_acts with Some s => at_read s 0 LName /\ at_write s 1 LName | None => False end).
  { vm_compute. split; eexists; reflexivity. }
  destruct (exec start loadxml_acts) as [s|] eqn:E; [|done]. destruct H as [H1 H2]. exists s. split_and!; try done.
  - unfold loadxml_acts. schedule.
  - exists 1, 0. auto.
Qed.
(** Clone of a collection takes no lock. *)
Definition clone_acts : list (act unit) :=
  [Begin 0 (a_path u_Clone [true; false]); Begin 1 (a_path u_Push []); Go 1; Go 1; Go 1].
Lemma clone_race :
  exists acts s, calls_of (u_Clone :: collection_methods) acts /\ exec start acts = Some s /\ race s tt.
Proof.
  exists clone_acts.
  assert (H : match exec start clone_acts with Some s => at_read s 0 tt /\ at_write s 1 tt | None => False end).
  { vm_compute. split; eexists; reflexivity. }
  destruct (exec start clone_acts) as [s|] eqn:E; [|done]. destruct H as [H1 H2]. exists s. split_and!; try done.
  - unfold clone_acts. schedule.
  - exists 1, 0. auto.
Qed.
(** A dataset that contains itself: a reader through the cycle and a writer block each other for good. *)
Definition cycle_acts : list (act unit) :=
  [Begin 0 (a_path (d_read_through 1) []); Go 0; Go 0; Begin 1 (a_path d_write []); Go 1].
Lemma cycle_stuck :
  exists acts s, calls_of (d_read_through 1 :: datasetts_methods) acts /\ exec start acts = Some s /\ stuck s /\ self_block s 0.
Proof.
  exists cycle_acts.
  assert (H : match exec start cycle_acts with
    | Some s => s_code s 0 <> [] /\ s_code s 1 <> [] /\ step s (Go 0) = None /\ step s (Go 1) = None /\
                (exists rest, s_code s 0 = RLock :: rest) /\ r_readers (s_lock s) = [0]
    | None => False end).
  { vm_compute. split_and!; try done. eexists; reflexivity. }
  assert (Hc : match exec start cycle_acts with Some s => forall t, s_code s (S (S t)) = [] | None => False end).
  { vm_compute. done. }
  destruct (exec start cycle_acts) as [s|] eqn:E; [|done]. destruct H as (H1 & H2 & H3 & H4 & [rest H5] & H6). exists s. split_and!; try done.
  - unfold cycle_acts. schedule.
  - split; [by exists 0|]. intros t Ht. destruct t as [|[|t]]; [done|done|]. by rewrite Hc in Ht.
  - split; [exists rest; by right|]. right. rewrite H6. by left.
Qed.
