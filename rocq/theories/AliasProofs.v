(** * Clone shares the arrays of stored slices and every other value it does not know. *)
From Verif Require Import GoBase GoStrings DatasetModel DatasetSpec DatasetProofs DatasetProofs2 DatasetProofs3 DatasetProofs4 AliasModel.

Lemma clone_same_value ord n h l h' l' key v : order_ok ord -> complete h l -> clone ord n h l = Ok (h', l') ->
  (forall d, v <> VRef d) -> gets h l key (Some v) <-> gets h' l' key (Some v).
Proof.
  intros Ho Hc E Hv. destruct (clone_deep ord n h l h' l' Ho Hc E) as (_ & _ & _ & H1 & H2). split; intros Hg.
  - destruct (H1 _ _ Hg) as (r' & Hr & Ha). destruct r' as [v'|]; [|done]. inversion Ha as [v0|d d']; subst; [done|by edestruct Hv].
  - destruct (H2 _ _ Hg) as (r & Hr & Ha). destruct r as [v'|]; [|done]. inversion Ha as [v0|d d']; subst; [done|by edestruct Hv].
Qed.
Lemma get_slice_returns sl h l key s : returns (fun n => get_slice sl n h l key) (Some s) <-> exists k, gets h l key (Some (VOther k)) /\ sl k = Some s.
Proof.
  unfold returns, gets, get_slice. split.
  - intros (n & E). destruct (dget n h l key) as [r| |] eqn:Eg; try done. cbn [obind] in E. destruct r as [[]|]; try done. injection E as E. eexists. split; [by exists n|exact E].
  - intros (k & (n & E) & Hs). exists n. rewrite E. cbn [obind]. by rewrite Hs.
Qed.
Lemma read_write A s i x A' : write A s i x = Some A' -> read A' s i = Some x.
Proof.
  unfold write, read. destruct (bool_decide _) eqn:Eb; [|done]. destruct (A !! s_array s) as [a|] eqn:Ea; simpl; [|done].
  destruct (a !! (s_off s + i)%nat) eqn:Ei; [|done]. intros [= <-]. rewrite lookup_alter, Ea. simpl.
  apply list_lookup_insert. by eapply lookup_lt_Some.
Qed.
Lemma clone_shares_slices sl ord n h l h' l' key s : order_ok ord -> complete h l -> clone ord n h l = Ok (h', l') ->
  returns (fun n => get_slice sl n h' l' key) (Some s) ->
  returns (fun n => get_slice sl n h' l key) (Some s) /\
  forall A i x A', write A s i x = Some A' -> read A' s i = Some x.
Proof.
  intros Ho Hc E. rewrite !get_slice_returns. intros (k & Hg & Hs). split; [|by intros; eapply read_write].
  exists k. split; [|done]. apply (clone_same_value ord n h l h' l' key (VOther k) Ho Hc E) in Hg; [|done].
  destruct (clone_deep ord n h l h' l' Ho Hc E) as (Hsub & _).
  apply (gets_frame h h' l key); [|done]. intros x Hx. destruct (Hc x Hx) as ([o Ho'] & _). rewrite Ho'. by apply Hsub.
Qed.
