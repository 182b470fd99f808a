(** Property theorems C177: saving and loading between sessions. *)
From Verif Require Import Prelude Bytes Bleaching Utils BinInput Json Fs RamData Ram Disc DataSet Wisard.
From Verif Require Import SpecBin SpecDisc SpecBleach SpecWisard SpecValues SpecSaved SpecUtf8 Utf8Proofs CtorFacts WisardFacts WisardJson WisardSaved SizesClus.
From Verif Require Import PropsWisard PropsDefined PropsDefinedSaved.

(** The text of the model is made in memory and a model is built from it. *)
Definition save_load (iter : iteration) (rnd : str -> str) (f : fs) (path : str) (w : wisard) : res wisard :=
  let* j := fst (wisard_json iter rnd f w false path) in wisard_of_json f j.
(** Sessions: the calls of each, going on after exceptions, then save and load; the outcomes of the calls
    and the model at the end. *)
Fixpoint sessions (lhs : bool) (iter : iteration) (rnd : str -> str) (f : fs) (path : str) (w : wisard) (css : list (list wcall)) : res (list (res unit) * wisard) :=
  match css with
  | [] => Ok ([], w)
  | cs :: css => let '(os, v) := outcomes (wcall_run lhs) w cs in
      let* w' := save_load iter rnd f path v in
      let* p := sessions lhs iter rnd f path w' css in Ok (os ++ fst p, snd p)
  end.
Lemma outcomes_app {S C} (run : S -> C -> eff S unit) : forall a b w, Forall served (fst (outcomes run w a)) ->
  outcomes run w (a ++ b) = (fst (outcomes run w a) ++ fst (outcomes run (snd (outcomes run w a)) b), snd (outcomes run (snd (outcomes run w a)) b)).
Proof.
  induction a as [|c a IH]; intros b w H; [cbn; apply surjective_pairing|]. cbn [outcomes app] in *. destruct (run w c) as [o s'].
  destruct o as [u|e|u|]; cbn [fst snd] in *; try (apply Forall_cons in H as [[] _]); specialize (IH b s'); destruct (outcomes run s' a) as [os t]; cbn [fst snd] in *; apply Forall_cons in H as [_ H]; rewrite (IH H); reflexivity.
Qed.
(** Every label the model knows was named by a training call that was answered and handed over no empty image. *)
Definition all_taught (cs : list wcall) (os : list (res unit)) (w : wisard) : Prop :=
  forall l d, w_discriminators w !! l = Some d -> is_utf8 l /\ saved_size d <= INT_MAX + 1 /\ exists c, (c, Ok tt) ∈ zip cs os /\ teaches l c.

(** C177: sessions that end with a save and begin with a load do exactly what one uninterrupted program
    does, whatever calls fail in them. *)
Theorem C177_sessions : forall lhs_first iter rnd f path w0 css,
  good_iter iter -> w_discriminators w0 = ∅ -> w_mapping w0 = ∅ -> w_searchBestConfidence w0 = false -> w_addressSize w0 <> 0 -> SpecSaved.int_options w0 ->
  Forall (safe_call w0) (List.concat css) -> zsum (handed <$> List.concat css) < INT_MAX - 1 ->
  (forall before after, css = before ++ after -> before <> [] -> let '(os, w) := outcomes (wcall_run lhs_first) w0 (List.concat before) in all_taught (List.concat before) os w) ->
  sessions lhs_first iter rnd f path w0 css = Ok (outcomes (wcall_run lhs_first) w0 (List.concat css)).
Proof.
  intros lhs iter rnd f path w0 css Hi H0 Hm Hsb Ha Ho Hc HM Hall.
  assert (Hr : some_rams w0) by (intros l; rewrite Hm, lookup_empty; discriminate).
  assert (Hwm : forall w, same_setup w0 w -> without_mapping w = w).
  { intros w Hw. unfold without_mapping. destruct w. unfold same_setup in Hw. injection Hw as; subst. cbn in *. rewrite Hm, Hsb. reflexivity. }
  assert (Hgo : forall after before, css = before ++ after -> sessions lhs iter rnd f path (snd (outcomes (wcall_run lhs) w0 (List.concat before))) after = Ok (outcomes (wcall_run lhs) (snd (outcomes (wcall_run lhs) w0 (List.concat before))) (List.concat after))).
  { induction after as [|cs after IH]; intros before E; [reflexivity|].
    assert (E' : css = (before ++ [cs]) ++ after) by (rewrite <- app_assoc; exact E). cbn [sessions List.concat].
    specialize (IH (before ++ [cs]) E').
    assert (Econc : List.concat css = List.concat (before ++ [cs]) ++ List.concat after) by (rewrite E', List.concat_app; reflexivity).
    assert (Econc2 : List.concat (before ++ [cs]) = List.concat before ++ cs) by (rewrite List.concat_app; cbn; rewrite app_nil_r; reflexivity).
    assert (Hc' : Forall (safe_call w0) (List.concat (before ++ [cs]))) by (rewrite Econc in Hc; apply Forall_app in Hc; exact (proj1 Hc)).
    assert (HM' : zsum (handed <$> List.concat (before ++ [cs])) < INT_MAX - 1).
    { rewrite Econc, fmap_app, zsum_app in HM. pose proof (total_handed (List.concat after)). lia. }
    assert (Hcb : Forall (safe_call w0) (List.concat before)) by (rewrite Econc2 in Hc'; apply Forall_app in Hc'; exact (proj1 Hc')).
    assert (HMb : zsum (handed <$> List.concat before) <= INT_MAX).
    { rewrite Econc2, fmap_app, zsum_app in HM'. pose proof (total_handed cs). lia. }
    pose proof (outcomes_fine lhs w0 (List.concat before) 0 w0 Ha (same_refl w0) ltac:(lia) ltac:(lia)) as Hf. specialize (Hf ltac:(intros l d; rewrite H0, lookup_empty; discriminate) Hcb).
    assert (Hsv : Forall served (fst (outcomes (wcall_run lhs) w0 (List.concat before)))) by (destruct (outcomes (wcall_run lhs) w0 (List.concat before)); exact (proj1 (proj2 Hf))).
    set (u := snd (outcomes (wcall_run lhs) w0 (List.concat before))) in *.
    assert (Estep : snd (outcomes (wcall_run lhs) u cs) = snd (outcomes (wcall_run lhs) w0 (List.concat (before ++ [cs])))).
    { rewrite Econc2, (outcomes_app _ _ cs w0 Hsv). reflexivity. }
    assert (Hsu : Forall served (fst (outcomes (wcall_run lhs) u cs))).
    { pose proof (outcomes_fine lhs w0 (List.concat (before ++ [cs])) 0 w0 Ha (same_refl w0) ltac:(lia) ltac:(lia)) as Hq. specialize (Hq ltac:(intros l d; rewrite H0, lookup_empty; discriminate) Hc').
      rewrite Econc2, (outcomes_app _ _ cs w0 Hsv) in Hq. destruct Hq as (_ & Hq & _). apply Forall_app in Hq. exact (proj2 Hq). }
    rewrite (outcomes_app _ cs (List.concat after) u Hsu).
    pose proof (C176_saved_partial lhs iter rnd f path w0 (List.concat (before ++ [cs])) Hi H0 Ha Ho Hr Hc' HM') as H.
    pose proof (Hall (before ++ [cs]) after E' ltac:(destruct before; discriminate)) as Ht.
    pose proof (outcomes_fine lhs w0 (List.concat (before ++ [cs])) 0 w0 Ha (same_refl w0) ltac:(lia) ltac:(lia)) as Hf'. specialize (Hf' ltac:(intros l d; rewrite H0, lookup_empty; discriminate) Hc').
    destruct (outcomes (wcall_run lhs) u cs) as [ou v]. cbn [fst snd] in *. subst v.
    destruct (outcomes (wcall_run lhs) w0 (List.concat (before ++ [cs]))) as [os w]. cbn [snd] in *. destruct (H Ht) as (j & E1 & E2 & _).
    unfold save_load. rewrite E1. cbn [fst rbind]. rewrite E2. cbn [rbind]. rewrite (Hwm w) by exact (proj2 (proj2 (proj2 Hf'))). rewrite IH. reflexivity. }
  exact (Hgo css [] eq_refl).
Qed.
Print Assumptions C177_sessions.
(** The hypotheses are met by three sessions with calls that fail in every way. *)
Definition second : list wcall := [CTrain (fun _ => some_draw) [vec_image [9; 0; 1; 1]] [hot]; CLeaveOne (vec_image [1]) cold].
Definition third : list wcall := [CLeaveOne (vec_image [0; 0; 1; 1]) cold].
Definition three : list (list wcall) := [survivors; second; third].
Lemma prefixes3 {A} (a b c : A) before after : [a; b; c] = before ++ after -> before <> [] -> before = [a] \/ before = [a; b] \/ before = [a; b; c].
Proof. intros E Hne. destruct before as [|x [|y [|z [|t r]]]]; cbn in E; [congruence|injection E as <- _; auto|injection E as <- <- _; auto|injection E as <- <- <- _; auto|discriminate]. Qed.
Example C177_witness : Forall (safe_call wild) (List.concat three) /\ zsum (handed <$> List.concat three) < INT_MAX - 1 /\ w_mapping wild = ∅ /\ w_searchBestConfidence wild = false /\
  (forall before after, three = before ++ after -> before <> [] -> let '(os, w) := outcomes (wcall_run false) wild (List.concat before) in all_taught (List.concat before) os w) /\
  fst (outcomes (wcall_run false) wild (List.concat three)) = [Throw pos_exn; Throw entry_small_exn; Throw sizes_exn; Throw entry_exn; Ok tt; Ok tt; Throw pos_exn; Throw pos_exn; Throw entry_exn; Ok tt].
Proof.
  split.
  { unfold three. cbn [List.concat]. apply Forall_app. split; [exact (proj1 C176_witness)|]. assert (Hl : forall v : list Z, (length v <= 4)%nat -> exists u, vec_image v = vec_image u /\ len u + 2 <= INT_MAX) by (intros v Hv; exists v; split; [reflexivity|]; unfold len, INT_MAX; lia).
    match goal with |- Forall _ ?l => assert (Forall (list_call 2) l) as H end.
    { unfold second, third. cbn [app]. apply Forall_cons. split; [|apply Forall_cons; split; [|apply Forall_cons; split; [|constructor]]]; cbn [list_call]; [|apply Hl; cbn; lia..].
      split; [discriminate|]; split; [vm_compute; congruence|]; split; [vm_compute; congruence|]; split; [intros l; apply some_draw_valid|]; apply Forall_cons; split; [apply Hl; cbn; lia|constructor]. }
    eapply List.Forall_impl; [|exact H]. intros c. apply list_call_safe; try reflexivity; [lia|left; cbn; lia]. }
  split; [vm_compute; reflexivity|]. split; [reflexivity|]. split; [reflexivity|].
  assert (Hnil : List.concat [survivors] = survivors ++ [] /\ List.concat [survivors; second] = survivors ++ second /\ List.concat [survivors; second; third] = survivors ++ second ++ third) by (vm_compute; auto).
  assert (Hp : forall rest os, fst (outcomes (wcall_run false) wild (survivors ++ rest)) = os -> nth_error os 5 = Some (Ok tt) ->
    bool_decide (map_Forall (fun l d => (l = hot \/ l = cold) /\ saved_size d <= INT_MAX + 1) (w_discriminators (snd (outcomes (wcall_run false) wild (survivors ++ rest))))) = true ->
    let '(os, w) := outcomes (wcall_run false) wild (survivors ++ rest) in all_taught (survivors ++ rest) os w).
  { intros rest os Eo En Hm. destruct (outcomes (wcall_run false) wild (survivors ++ rest)) as [os' w]. cbn [fst snd] in *. subst os'. apply bool_decide_eq_true in Hm. intros l d E. destruct (Hm l d E) as [Hl Hsz].
    split; [apply utf8_ok_iff; destruct Hl as [-> | ->]; vm_compute; reflexivity|]. split; [exact Hsz|].
    exists (CTrain (fun _ => some_draw) [vec_image [1; 0; 1; 1]; vec_image [0; 0; 1; 1]] [hot; cold]). split.
    - do 6 (destruct os as [|? os]; [discriminate En|]). cbn in En. injection En as ->. cbn [survivors wild_calls app zip zip_with]. do 5 right. left.
    - cbn [teaches]. split; [destruct Hl as [-> | ->]; [left|right; left]|]. repeat (apply Forall_cons; split); [..|constructor]; vm_compute; discriminate. }
  split; [|vm_compute; reflexivity]. intros before after E Hne.
  destruct (prefixes3 _ _ _ before after E Hne) as [-> | [-> | ->]].
  - rewrite (proj1 Hnil). apply (Hp [] _ eq_refl); vm_compute; reflexivity.
  - rewrite (proj1 (proj2 Hnil)). apply (Hp second _ eq_refl); vm_compute; reflexivity.
  - rewrite (proj2 (proj2 Hnil)). apply (Hp (second ++ third) _ eq_refl); vm_compute; reflexivity.
Qed.
