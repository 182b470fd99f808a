(** Property theorem C86_numbers: the answers of unsupervised classification are numbers in decimal. Vocabulary in SpecNumber.v. *)
From Verif Require Import Prelude Bytes Cluster SpecNumber.
From stdpp Require Import pretty.

Definition dstep (v : nat) (c : ascii) : nat := (10 * v + (nat_of_ascii c - 48))%nat.
Lemma digit_of (x : N) : (x < 10)%N -> nat_of_ascii (pretty_N_char x) = (48 + N.to_nat x)%nat.
Proof.
  intros H. assert (K : x = 0%N \/ x = 1%N \/ x = 2%N \/ x = 3%N \/ x = 4%N \/ x = 5%N \/ x = 6%N \/ x = 7%N \/ x = 8%N \/ x = 9%N) by lia.
  by repeat (destruct K as [-> | K]; [reflexivity|]); subst x.
Qed.
Lemma go_value : forall (x : N) (s : string), foldl dstep 0%nat (list_ascii_of_string (pretty_N_go x s)) = foldl dstep (N.to_nat x) (list_ascii_of_string s).
Proof.
  intros x. induction (N.lt_wf_0 x) as [x _ IH]. intros s. destruct (decide (x = 0%N)) as [-> |Hx]; [by rewrite pretty_N_go_0|].
  rewrite pretty_N_go_step; [|lia]. rewrite IH; [|apply N.div_lt; lia]. cbn [list_ascii_of_string foldl]. f_equal. unfold dstep. rewrite digit_of; [|apply N.mod_lt; lia].
  rewrite N2Nat.inj_div. pose proof (N.div_mod x 10 ltac:(lia)). lia.
Qed.
Lemma go_digits : forall (x : N) (s : string), Forall (fun c => 48 <= nat_of_ascii c <= 57)%nat (list_ascii_of_string s) -> Forall (fun c => 48 <= nat_of_ascii c <= 57)%nat (list_ascii_of_string (pretty_N_go x s)).
Proof.
  intros x. induction (N.lt_wf_0 x) as [x _ IH]. intros s H. destruct (decide (x = 0%N)) as [-> |Hx]; [by rewrite pretty_N_go_0|].
  rewrite pretty_N_go_step; [|lia]. apply IH; [apply N.div_lt; lia|]. constructor; [|exact H]. pose proof (N.mod_lt x 10 ltac:(lia)). rewrite digit_of; lia.
Qed.
Lemma go_lead : forall (x : N) (s : string), (0 < x)%N -> exists c r, list_ascii_of_string (pretty_N_go x s) = c :: r /\ c <> "0"%char.
Proof.
  intros x. induction (N.lt_wf_0 x) as [x _ IH]. intros s Hx. rewrite pretty_N_go_step; [|lia]. destruct (decide (x / 10 = 0)%N) as [E|E].
  - rewrite E, pretty_N_go_0. eexists _, _. split; [reflexivity|]. intros Hc. apply (f_equal nat_of_ascii) in Hc. pose proof (N.mod_lt x 10 ltac:(lia)). rewrite digit_of in Hc; [|lia].
    change (nat_of_ascii "0") with 48%nat in Hc. pose proof (N.div_mod x 10 ltac:(lia)). lia.
  - apply IH; [apply N.div_lt; lia|lia].
Qed.

(** The text the model writes for a discriminator number (in answers of classifyUnsupervised, in
    the names of candidates and of files) is that number in decimal. *)
Theorem C86_numbers : forall j, written j (to_string j).
Proof.
  intros j. unfold to_string, pretty, pretty_N. destruct (decide (N.of_nat j = 0)%N) as [E|E].
  - assert (j = 0%nat) as -> by lia. repeat split; [by repeat constructor; vm_compute; lia|discriminate|by intros c r H].
  - destruct (go_lead (N.of_nat j) "" ltac:(lia)) as (c & r & Hc & H0). split; [apply go_digits; constructor|]. rewrite Hc. split; [discriminate|]. split; [intros c' r' H; by injection H as -> |].
    rewrite <- Hc. change (foldl dstep 0%nat (list_ascii_of_string (pretty_N_go (N.of_nat j) "")) = j). rewrite go_value. cbn [foldl list_ascii_of_string]. lia.
Qed.
Print Assumptions C86_numbers.
Example C86_numbers_witness : to_string 1024 = lit "1024" /\ to_string 0 = lit "0".
Proof. split; vm_compute; reflexivity. Qed.
