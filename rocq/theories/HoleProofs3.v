(** * Rendering with free fields (C102): a page. *)
From Verif Require Import GoBase GoStrings DatasetModel LangModel DatasetSpec DatasetProofs3 TemplateModel TemplateSpec
  RenderSpec RenderProofs10 HoleSpec HoleProofs2.
Definition hole_page : string := "<b>{{name}}</b>@@rows:r@@??vip:v??[[r]]{{.counter}}{{name}},[[]][[v]]VIP{{name}}[[]]".
Definition hole_kind (k : bytes) : role :=
  if bool_decide (k = B "name") then Free else if bool_decide (k = B ".counter" \/ k = B "vip") then Plain else Any.
Definition hole_data (a b c : bytes) : heap :=
  {[ 1%positive := ODs {[ B "name" := VStr a; B "vip" := VBool true; B "rows" := VRef 2%positive ]};
     2%positive := OColl [Some 3%positive; Some 4%positive];
     3%positive := ODs {[ B "name" := VStr b ]};
     4%positive := ODs {[ B "name" := VStr c ]} ]}.
Lemma page_compiled s : compiled (page s).1.
Proof.
  assert (H : built (page s).1); [|by apply built_ok in H as [? _]].
  unfold page. pose proof (bt_new ∅ (B s) bt_none) as H. destruct (new_template ∅ (B s)) as [th [t|]]; exact H.
Qed.
Lemma hole_conditions : proper hole_kind /\ compiled (page hole_page).1 /\ careful_template hole_kind (page hole_page).1 (page hole_page).2 /\
  forall a b c a' b' c', variant hole_kind (hole_data a b c) (hole_data a' b' c').
Proof.
  split; [done|]. split; [apply page_compiled|]. split; [apply careful_checked; [apply page_compiled|vm_compute; reflexivity]|].
  intros a b c a' b' c' l. unfold hole_data.
  destruct (decide (l = 1%positive)) as [->|H1].
  { simplify_map_eq. constructor. intros k. destruct (decide (k = B "name")) as [->|K1]; [simplify_map_eq; by constructor|].
    destruct (decide (k = B "vip")) as [->|K2]; [simplify_map_eq; by constructor|]. destruct (decide (k = B "rows")) as [->|K3]; simplify_map_eq; by constructor. }
  destruct (decide (l = 2%positive)) as [->|H2]; [simplify_map_eq; by constructor|].
  destruct (decide (l = 3%positive)) as [->|H3]; [simplify_map_eq; constructor; intros k; destruct (decide (k = B "name")) as [->|K1]; simplify_map_eq; by constructor|].
  destruct (decide (l = 4%positive)) as [->|H4]; [simplify_map_eq; constructor; intros k; destruct (decide (k = B "name")) as [->|K1]; simplify_map_eq; by constructor|].
  simplify_map_eq. by constructor.
Qed.
Lemma hole_case : forall F langs,
  (forall a b c, text_of (run F ord0 langs hole_page (hole_data a b c) (Some 1%positive)) =
    Ok (B "<b>" ++ a ++ B "</b>1" ++ b ++ B ",2" ++ c ++ B ",VIP" ++ a)) /\
  text_of (run F ord0 langs hole_page (hole_data (B "{{vip}}") (B "[[v]]") (B "")) (Some 1%positive)) = Ok (B "<b>{{vip}}</b>1[[v]],2,VIP{{vip}}").
Proof.
  intros F langs. split; [|vm_compute; reflexivity]. intros a b c. vm_compute.
  change (fix Ffix (x x0 : list ascii) {struct x} : list ascii := match x with [] => x0 | x1 :: x2 => x1 :: Ffix x2 x0 end) with (@app ascii).
  rewrite ?app_nil_r. repeat (rewrite <- ?app_assoc; cbn [app]). reflexivity.
Qed.
Lemma hole_chooses : forall F langs, let s := "??name:v??[[v]]plain[[]][[v.x]]X[[]]"%string in
  text_of (run F ord0 langs s (hole_data (B "y") [] []) (Some 1%positive)) = Ok (B "plain") /\
  text_of (run F ord0 langs s (hole_data (B "x") [] []) (Some 1%positive)) = Ok (B "X").
Proof. intros F langs. vm_compute. done. Qed.
