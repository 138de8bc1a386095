(** * What loading and cloning keep; witnesses. *)
From Verif Require Import GoBase GoStrings GoStringsProofs Regex DatasetModel LangModel DatasetSpec DatasetProofs3
  TemplateModel TemplateSpec TemplateProofs3 TemplateProofs5 TemplateProofs6 RenderSpec RenderProofs RenderProofs4 RenderProofs6 RenderProofs8 RenderProofs9.
Local Open Scope Z_scope.

Lemma built_ok th : built th -> compiled th /\ closed th /\ rooted th /\ consistent th.
Proof.
  induction 1 as [|th data _ (H1 & H2 & H3 & H4)|th t data _ (H1 & H2 & H3 & H4) Ht].
  - split; [apply no_templates_compiled|]. split; [apply no_templates_closed|]. split; [apply no_templates_rooted|apply no_templates_consistent].
  - split; [by apply new_template_compiled|]. split; [by apply new_template_closed|]. split; [by apply new_template_rooted|by apply new_template_consistent].
  - split; [by apply compile_compiled|]. split; [by apply compile_closed|]. split; [apply compile_rooted; [done..|by apply elem_of_dom]|by apply compile_consistent].
Qed.
Lemma clone_keeps tord th n t th' c : any_order tord -> compiled th -> closed th -> rooted th -> consistent th -> is_Some (th !! t) ->
  tclone tord n th t = Ok (th', c) -> compiled th' /\ closed th' /\ rooted th' /\ is_Some (th' !! c) /\ forall x, is_Some (th !! x) -> is_Some (th' !! x).
Proof.
  intros Ho Hp Hc Hr Hk Ht H. destruct (tclone_clones tord th Ho Hk n th id [] t th' c (mirrors_start th Hc) Ht H) as (rho & (M1 & M2 & M3 & M4) & He & Hcd & _ & _).
  assert (Hall : forall x X, th' !! x = Some X -> exists O, th !! rho x = Some O /\ t_root X = t_root O /\ rho <$> t_father X = t_father O /\
    (forall n y, subs_of X !! n = Some y -> is_Some (th' !! y)) /\ (forall y, t_father X = Some y -> is_Some (th' !! y))).
  { intros x X HX. destruct (M2 x X HX) as (O & HO & Hro & Hrest). destruct Hrest as (_ & ? & ? & ?); [by intros Hx%elem_of_nil|]. by exists O. }
  split; [|split; [|split; [|split; [done|]]]].
  - intros x X ps HX Hps. destruct (Hall x X HX) as (O & HO & Hro & _). apply (Hp (rho x) O ps HO). congruence.
  - split.
    + intros x X k y HX Hy. destruct (Hall x X HX) as (O & _ & _ & _ & Hs & _). by eapply Hs.
    + intros x X y HX Hy. destruct (Hall x X HX) as (O & _ & _ & _ & _ & Hs). by eapply Hs.
  - intros x. remember (rho x) as o eqn:Eo. revert x Eo. induction (Hr o) as [o _ IH]. intros x ->. constructor. intros y (X & HX & Hf).
    destruct (Hall x X HX) as (O & HO & _ & Hfa & _). rewrite Hf in Hfa. cbn in Hfa. eapply (IH (rho y)); [|done]. by exists O.
  - intros x Hx. by apply He.
Qed.

Definition page (s : string) : theap * loc := match new_template ∅ (B s) with (th, Some t) => (th, t) | (th, None) => (th, 1%positive) end.
Definition run F ord langs (s : string) (h : heap) (d : option loc) : outcome (heap * bytes) :=
  execute F ord langs (page s).1 30 h (page s).2 d.
Definition text_of (r : outcome (heap * bytes)) : outcome bytes := match r with Ok (_, b) => Ok b | Panic => Panic | NoFuel => NoFuel end.
(** The order in which this model's map lists its entries. *)
Definition ord0 (h : heap) (m : gmap bytes value) : list (bytes * value) := map_to_list m.
Definition tord0 (th : theap) (m : gmap bytes loc) : list (bytes * loc) := map_to_list m.
Definition ds (l : list (string * value)) : obj := ODs (list_to_map (map (fun '(k, v) => (B k, v)) l)).
(** 1: the data; 2: collection c of two datasets 3 and 4; 5: dataset d; 6: empty collection e. *)
Definition shop : heap := list_to_map
  [(1%positive, ds [("c"%string, VRef 2); ("d"%string, VRef 5); ("e"%string, VRef 6); ("n"%string, VStr (B "N")); ("k"%string, VStr (B "red")); ("void"%string, VStr [])]);
   (2%positive, OColl [Some 3%positive; Some 4%positive]);
   (3%positive, ds [("n"%string, VStr (B "first"))]); (4%positive, ds [("m"%string, VInt KInt 7)]);
   (5%positive, ds [("n"%string, VStr (B "D")); ("k"%string, VStr (B "blue"))]); (6%positive, OColl [])].
Definition heap_of (r : outcome (heap * bytes)) : heap := match r with Ok (h, _) => h | _ => ∅ end.
Lemma text_ok r o : text_of r = Ok o -> r = Ok (heap_of r, o).
Proof. destruct r as [[h b]| |]; simpl; intros H; try discriminate. by injection H as ->. Qed.
Definition counting : string := "{{c>0>.counter}}@@c:a@@[[a]]x[[]]".
Lemma counting_once F langs : text_of (run F ord0 langs counting shop (Some 1%positive)) = Ok (B "xx").
Proof. vm_compute. reflexivity. Qed.
Lemma counting_twice F langs : text_of (run F ord0 langs counting (heap_of (run F ord0 langs counting shop (Some 1%positive))) (Some 1%positive)) = Ok (B "1xx").
Proof. vm_compute. reflexivity. Qed.
Lemma run_ok F ord langs s h d o : text_of (run F ord langs s h d) = Ok o -> execute F ord langs (page s).1 30 h (page s).2 d = Ok (heap_of (run F ord langs s h d), o).
Proof. intros H. apply text_ok in H. exact H. Qed.
Lemma page_built s : built (page s).1.
Proof. unfold page. pose proof (bt_new ∅ (B s) bt_none) as H. destruct (new_template ∅ (B s)) as [th [t|]]; exact H. Qed.
Lemma not_repeatable : exists th t h d, built th /\ forall F langs, exists h1 h2,
  execute F ord0 langs th 30 h t (Some d) = Ok (h1, B "xx") /\ execute F ord0 langs th 30 h1 t (Some d) = Ok (h2, B "1xx").
Proof.
  exists (page counting).1, (page counting).2, shop, 1%positive. split; [apply page_built|].
  intros F langs. eexists _, _. split; apply run_ok; [apply counting_once|apply counting_twice].
Qed.
Lemma no_value_no_none F langs : 
  text_of (run F ord0 langs "??x??[[x]]shown[[]]" shop (Some 1%positive)) = Ok (B "shown") /\
  text_of (run F ord0 langs "??void:x??[[x]]shown[[]]" shop (Some 1%positive)) = Ok (B "shown") /\
  text_of (run F ord0 langs "@@e:x@@[[x]]one[[]]" shop (Some 1%positive)) = Ok (B "one") /\
  text_of (run F ord0 langs "@@zz:x@@[[x]]one[[]]" shop (Some 1%positive)) = Ok (B "one").
Proof. repeat split; vm_compute; reflexivity. Qed.
Lemma get_template_no_panic th t a n k r : get_template k th t a = Ok r -> get_template n th t a <> Panic.
Proof.
  intros Hk Hn. destruct (decide (n <= k)%nat).
  - rewrite (get_template_mono th n k t a) in Hk; [|done|by rewrite Hn]. congruence.
  - rewrite (get_template_mono th k n t a) in Hn; [|lia|by rewrite Hk]. congruence.
Qed.
Lemma endless F ord th lg t T pre s rest a : th !! t = Some T -> t_root T = Some (map stored (map TText pre ++ TRef s :: rest)) ->
  separated ":"%char s a [] -> visible th t a (Some t) -> forall n st, injector F ord th n lg st t = NoFuel.
Proof.
  intros HT Hr Hs Hv n. induction n as [|n IH]; intros st; cbn [injector]; [done|]. rewrite HT, Hr. clear Hr.
  assert (E : do_params F ord th n lg (injector F ord th n lg) st t (map stored (map TText pre ++ TRef s :: rest)) = NoFuel); [|by rewrite E].
  revert st. induction pre as [|w pre IHp]; intros st; cbn [map app do_params].
  - change (do_param F ord th n lg (injector F ord th n lg) st t (stored (TRef s))) with (do_reference F ord th n (injector F ord th n lg) st t (split_on ":"%char s)).
    apply separated_split in Hs. rewrite Hs. cbn [do_reference]. unfold lookup_template.
    destruct (get_template n th t a) as [q| |] eqn:Eq; cbn [obind]; [| |done].
    + assert (Hvq : visible th t a q) by (apply get_template_visible; by exists n). rewrite <- (visible_unique _ _ _ _ _ Hv Hvq).
      unfold run_on. by rewrite IH.
    + exfalso. apply get_template_visible in Hv as [k Hk]. by eapply (get_template_no_panic th t a n k).
  - change (do_param F ord th n lg (injector F ord th n lg) st t (stored (TText w))) with (Ok (A := heap * option (list loc) * list bytes) (st, [w])).
    cbn [obind]. by rewrite IHp.
Qed.
Lemma endless_executes F ord langs th t T pre s rest a : th !! t = Some T -> t_root T = Some (map stored (map TText pre ++ TRef s :: rest)) ->
  separated ":"%char s a [] -> visible th t a (Some t) ->
  forall n h, execute F ord langs th n h t None = NoFuel /\ forall d, dget n h d (B "#") <> Panic -> execute F ord langs th n h t (Some d) = NoFuel.
Proof.
  intros HT Hr Hs Hv n h. split; [cbn [execute]; by rewrite (endless F ord th None t T pre s rest a)|]. intros d Hd. cbn [execute].
  destruct (dget n h d (B "#")) as [r| |]; [|done|done]. cbn [obind]. by rewrite (endless F ord th _ t T pre s rest a).
Qed.
(** A box that calls itself. *)
Lemma box_calls_itself : let th := (page "[[a]]>&&a&&[[]]&&a&&").1 in exists a, is_Some (th !! a) /\
  forall F ord langs n h, execute F ord langs th n h a None = NoFuel.
Proof.
  cbn zeta. set (th := (page "[[a]]>&&a&&[[]]&&a&&").1).
  destruct (match th !! (page "[[a]]>&&a&&[[]]&&a&&").2 with Some T => subs_of T !! B "a" | None => None end) as [a|] eqn:Ea; [|by vm_compute in Ea].
  destruct (th !! a) as [T|] eqn:ET; [|vm_compute in Ea; injection Ea as <-; by vm_compute in ET].
  exists a. split; [by exists T|]. intros F ord langs n h.
  apply (endless_executes F ord langs th a T [B ">"] (B "a") [] (B "a") ET).
  - vm_compute in Ea. injection Ea as <-. vm_compute in ET. injection ET as <-. vm_compute. reflexivity.
  - apply separated_split. by vm_compute.
  - apply get_template_visible. exists 5%nat. vm_compute in Ea. injection Ea as <-. by vm_compute.
Qed.
(** ** A check for [ranked] *)
(** The templates that can be seen from [t] under any name; [None]: out of fuel. *)
Fixpoint seen (n : nat) (th : theap) (t : loc) : option (list loc) :=
  match n with
  | O => None
  | S n' => match th !! t with
            | None => Some []
            | Some T => match t_father T with
                        | None => Some (map snd (map_to_list (subs_of T)))
                        | Some f => match seen n' th f with Some l => Some (map snd (map_to_list (subs_of T)) ++ l) | None => None end
                        end
            end
  end.
Definition calls (p : param) : bool := bool_decide (p_type p = MReference \/ p_type p = MRange \/ p_type p = MCondition).
Definition rank_check (th : theap) (rank : loc -> nat) : bool :=
  forallb (fun '(t, T) => match t_root T with
                          | Some ps => if existsb calls ps then match seen 50 th t with Some l => forallb (fun x => Nat.ltb (rank x) (rank t)) l | None => false end else true
                          | None => true
                          end) (map_to_list th).
Lemma seen_visible n th t l name x : seen n th t = Some l -> visible th t name (Some x) -> x ∈ l.
Proof.
  revert t l. induction n as [|n IH]; intros t l H Hv; [done|]. cbn [seen] in H. apply get_template_visible in Hv as [[|k] Hk]; [done|]. cbn [get_template] in Hk.
  destruct (th !! t) as [T|] eqn:ET; [|done].
  assert (Es : t_subs T ≫= (fun m => m !! name) = subs_of T !! name) by (unfold subs_of; by destruct (t_subs T)). rewrite Es in Hk.
  destruct (subs_of T !! name) as [y|] eqn:Ey.
  - injection Hk as ->. assert (Hin : x ∈ map snd (map_to_list (subs_of T))) by (apply elem_of_list_In, in_map_iff; exists (name, x); split; [done|]; by apply elem_of_list_In, elem_of_map_to_list).
    destruct (t_father T) as [f|]; [|by injection H as <-]. destruct (seen n th f); [|done]. injection H as <-. apply elem_of_app. by left.
  - destruct (t_father T) as [f|]; [|done]. destruct (seen n th f) as [l'|] eqn:El; [|done]. injection H as <-. apply elem_of_app. right.
    apply (IH f l' El). apply get_template_visible. by exists k.
Qed.
Lemma rank_check_ok th rank : rank_check th rank = true -> ranked th rank.
Proof.
  intros H t T l k n x HT Hr Hk Hc Hv. unfold rank_check in H. rewrite forallb_forall in H.
  specialize (H (t, T)). cbn beta iota in H. rewrite Hr in H.
  assert (Hin : In (t, T) (map_to_list th)) by (by apply elem_of_list_In, elem_of_map_to_list). specialize (H Hin).
  assert (He : existsb calls (map stored l) = true).
  { apply existsb_exists. exists (stored k). split; [by apply in_map, elem_of_list_In|]. by destruct Hc. }
  rewrite He in H. destruct (seen 50 th t) as [xs|] eqn:Es; [|done]. rewrite forallb_forall in H.
  apply PeanoNat.Nat.ltb_lt. apply H. apply elem_of_list_In. by eapply seen_visible.
Qed.
