(** * C123: printing data while other goroutines change them. *)
From Verif Require Import GoBase DatasetModel DatasetSpec DatasetProofs2 DatasetProofs3 TextSpec ParModel MeanSpec SnapModel SnapSpec SnapProofs2 TellModel TellSpec TellProofs TellProofs2.
Local Open Scope nat_scope.

(** Without other goroutines: String and GoString as in C79. *)
Theorem C123_alone : forall F ord n h go l, alone (p_show F ord n go l) h = (t <-! show F ord n h go l; Ok (h, t)).
Proof. exact alone_show. Qed.
Print Assumptions C123_alone.
(** Among goroutines that put no nil into the data: the text of a copy of the data as Clone makes it (C122). *)
Theorem C123_moments : forall F ord n go l (path : nat -> heap * list (act bytes)) T i s, order_ok ord -> course T path ->
  SnapSpec.whole (path 0).1 -> is_Some ((path 0).1 !! l) -> Forall (mindful (path 0).1) (path 0).2 ->
  (path 0).2 !! i = Some (p_show F ord n go l) -> (path T).2 !! i = Some (Ret s) ->
  exists j t, j <= T /\ snap (fun m => (path m).1) 0 l j t /\ says F go t s.
Proof. exact tell_course. Qed.
Print Assumptions C123_moments.
(** The text of a copy: there is only one, and it is that of the data the copy is made of. *)
Theorem C123_text : forall F, (forall go t s s', says F go t s -> says F go t s' -> s = s') /\
  (forall h l t go s, unfolds h l t -> says F go t s -> prints F h go l s).
Proof. exact (fun F => conj (fun go t s s' H => proj1 (says_det F) go t s H s') (fun h l t go s H => proj1 (says_prints F h) l t H go s)). Qed.
Print Assumptions C123_text.
(** If nothing below the object changes, the text is the one of C79. *)
Theorem C123_still : forall F ord n go l (path : nat -> heap * list (act bytes)) T i s, order_ok ord -> course T path ->
  SnapSpec.whole (path 0).1 -> is_Some ((path 0).1 !! l) -> Forall (mindful (path 0).1) (path 0).2 ->
  (path 0).2 !! i = Some (p_show F ord n go l) -> (path T).2 !! i = Some (Ret s) ->
  (forall m x, m <= T -> reach (path 0).1 l x -> (path m).1 !! x = (path 0).1 !! x) -> prints F (path 0).1 go l s.
Proof. exact tell_still. Qed.
Print Assumptions C123_still.
(** A thread safe dataset of plain values is printed as it was at one moment. *)
Theorem C123_flat : forall F ord n go l (path : nat -> heap * list (act bytes)) T i s, order_ok ord -> course T path ->
  SnapSpec.whole (path 0).1 -> is_Some ((path 0).1 !! l) -> Forall (mindful (path 0).1) (path 0).2 ->
  (path 0).2 !! i = Some (p_show F ord n go l) -> (path T).2 !! i = Some (Ret s) ->
  forall d, (forall m, m <= T -> (path m).1 !! l = Some (OTs (Some d)) /\ exists mp, (path m).1 !! d = Some (ODs mp) /\ forall k r, mp !! k <> Some (VRef r)) ->
  exists m, m <= T /\ prints F (path m).1 go l s.
Proof. exact tell_flat. Qed.
Print Assumptions C123_flat.
Theorem C123_no_panic : forall F ord n go l h0 (ps0 : list (act bytes)) h ps i, order_ok ord -> SnapSpec.whole h0 -> is_Some (h0 !! l) -> Forall (mindful h0) ps0 ->
  ps0 !! i = Some (p_show F ord n go l) -> rtc par_step (h0, ps0) (h, ps) -> ps !! i <> Some Fail.
Proof. exact tell_no_panic. Qed.
Print Assumptions C123_no_panic.
(** With more than one dataset the text need not be that of any moment: b is set before a. *)
Theorem C123_one_moment_refuted : forall F, exists (path : nat -> heap * list (act bytes)) T, course T path /\ path 0 = (two, [p_show F in_order 9 false 1%positive; sets_b_then_a]) /\
  (path T).2 !! 0 = Some (Ret seen3) /\ forall m, m <= T -> exists s, show F in_order 9 (path m).1 false 1%positive = Ok s /\ s <> seen3.
Proof. exact tell_not_one_moment. Qed.
Print Assumptions C123_one_moment_refuted.
(** A list of one person x; other goroutines change x to z and add y. *)
Example C123_case : forall F, SnapSpec.whole people /\ Forall (mindful people) (start4 F).2 /\
  (exists h, rtc par_step (start4 F) (h, [Ret (B "xcore.XDataset{list:XDatasetCollectionTS[0:xcore.XDataset{n:z} ]}"); Ret []; Ret []])) /\
  (exists h, rtc par_step (start4 F) (h, [Ret (B "xcore.XDataset{list:XDatasetCollectionTS[0:xcore.XDataset{n:x} 1:xcore.XDataset{n:y} ]}"); Ret []; Ret []])).
Proof. exact tell_case. Qed.
