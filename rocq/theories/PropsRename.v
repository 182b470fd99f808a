(** Property theorem C139: labels are only names. Vocabulary in SpecRename.v. *)
From Verif Require Import Prelude Bytes Utils BinInput Bleaching Ram Disc DataSet Wisard SpecDisc SpecBleach SpecWisard SpecRename.
From Verif Require Import BleachProofs WisardProofs WisardFacts Rename PropsWisard PropsDisc.

(** C139: false: a tie goes to the label that is last in the alphabet. *)
Definition both : list wcall := [CTrain env0 [w1; w1] [hot; cold]].
Definition other_name (l : str) : str := if bool_decide (l = hot) then cold else if bool_decide (l = cold) then hot else l.
Theorem C139_renaming_refuted : renaming other_name other_name /\
  fst (wrun true cfg both) = Ok tt /\ fst (wrun true (rename other_name cfg) (rename_call other_name other_name <$> both)) = Ok tt /\
  wisard_classify (snd (wrun true cfg both)) [w1] = Ok [hot] /\ other_name hot = cold /\
  wisard_classify (snd (wrun true (rename other_name cfg) (rename_call other_name other_name <$> both))) [w1] = Ok [hot].
Proof.
  split; [|vm_compute; auto]. intros l. unfold other_name.
  destruct (decide (l = hot)) as [->|H1]; [reflexivity|]. destruct (decide (l = cold)) as [->|H2]; [reflexivity|].
  rewrite (bool_decide_eq_false_2 _ H1), (bool_decide_eq_false_2 _ H2), (bool_decide_eq_false_2 _ H1), (bool_decide_eq_false_2 _ H2). reflexivity.
Qed.
Print Assumptions C139_renaming_refuted.

(** What holds of every Wisard and every renaming: the same calls under the new names have the
    same outcomes and lead to the renamed Wisard. *)
Theorem C139_renamed_calls_partial : forall f g lhs_first w cs o w', renaming f g ->
  wrun lhs_first w cs = (o, w') -> wrun lhs_first (rename f w) (rename_call f g <$> cs) = (o, rename f w').
Proof. intros f g lhs w cs o w' Hr E. rewrite (run_rename f g Hr), E. reflexivity. Qed.
Print Assumptions C139_renamed_calls_partial.
(** The renamed Wisard counts the same votes, gives the same degrees if bleaching is off or the
    new names keep the order, and in the latter case gives the renamed answers. *)
Theorem C139_renamed_answers_partial : forall f g w x, renaming f g ->
  (forall v, all_votes (w_discriminators w) x = Ok v -> all_votes (w_discriminators (rename f w)) x = Ok (kmap f v)) /\
  (forall cand, wisard_candidates w x = Ok cand -> w_bleachingActivated w = false -> wisard_candidates (rename f w) x = Ok (kmap f cand)) /\
  ((forall a b, is_Some (w_discriminators w !! a) -> is_Some (w_discriminators w !! b) -> str_lt a b -> str_lt (f a) (f b)) ->
   (forall cand, wisard_candidates w x = Ok cand -> wisard_candidates (rename f w) x = Ok (kmap f cand)) /\
   (forall k, w_discriminators w <> ∅ -> wisard_classify w [x] = Ok [k] -> wisard_classify (rename f w) [x] = Ok [f k])).
Proof.
  intros f g w x Hr. split; [intros v; apply (votes_rename f g Hr)|]. split; [intros cand Hc Hb; apply (candidates_rename f g); [exact Hr|congruence|exact Hc]|].
  intros Hm. split; [intros cand; apply (candidates_rename f g); [exact Hr|intros _; exact Hm]|].
  intros k Hne H. unfold wisard_classify in *. cbn [rmapM] in *. destruct (wisard_classify1 w x) as [k'| | |] eqn:E; try discriminate. cbn [rbind] in H. injection H as ->.
  rewrite (classify_rename f g w x k Hr Hm Hne E). reflexivity.
Qed.
Print Assumptions C139_renamed_answers_partial.
(** Not vacuous: putting a prefix before every label keeps the order. *)
Example C139_witness : let f := fun l => lit "is " ++ l in let g := fun l => drop 3 l in renaming f g /\ (forall a b, str_lt a b -> str_lt (f a) (f b)) /\
  wisard_classify (snd (wrun true cfg calls)) [w1; w2] = Ok [hot; cold] /\
  wisard_classify (snd (wrun true (rename f cfg) (rename_call f g <$> calls))) [w1; w2] = Ok [lit "is hot"; lit "is cold"].
Proof.
  cbv zeta. split; [intros l; reflexivity|]. split; [|vm_compute; auto].
  intros a b H. exact H.
Qed.
