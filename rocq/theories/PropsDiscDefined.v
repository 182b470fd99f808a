(** Property theorems C180: no call on a Discriminator is undefined, whatever was rejected before. *)
From Verif Require Import Prelude Bytes Bleaching Utils BinInput Json Ram Disc DataSet Wisard.
From Verif Require Import SpecBin SpecDisc SpecBleach SpecWisard SpecValues BinProofs UtilsProofs RamProofs DiscProofs DiscFacts WisardFacts WisardSafety TextProofs.
From Verif Require Import CtorFacts PropsWisard PropsDefined PropsDefinedMental PropsDisc PropsDiscSessions.

(** Constructor arguments for entries of e pixels that wire the RAMs safely: explicit positions lie inside
    the entry, and the addresses of a RAM fit. *)
Definition safe_ctor (a e base : Z) (indexes : list Z) (mapping : list (list Z)) : Prop :=
  match mapping with
  | [] => addressable base a /\ len indexes <= INT_MAX /\ Forall (fun p => 0 <= p) indexes /\ (indexes = [] -> e + a <= INT_MAX)
  | _ => Forall (fun addrs => len addrs <= INT_MAX /\ addressable base (len addrs) /\ Forall (fun p => 0 <= p < e) addrs) mapping
  end.
Definition ctor_setup (a : Z) (iz c : bool) (base : Z) (indexes : list Z) (mapping : list (list Z)) : wisard :=
  Wisard a false false (match mapping with [] => ∅ | _ => {[ [] := mapping ]} end) indexes iz c base false false false false 1 ∅.
Lemma ctor_is dr a e iz c indexes mapping base : disc_new dr a e iz c indexes mapping base = construct_discriminator dr (ctor_setup a iz c base indexes mapping) [] e.
Proof.
  unfold disc_new, construct_discriminator, ctor_setup. cbn [w_mapping w_indexes w_addressSize w_ignoreZero w_completeAddressing w_base].
  destruct mapping as [|m ms]; [rewrite lookup_empty; reflexivity|]. change (if negb (Nat.eqb (length (m :: ms)) 0) then ?x else ?y) with x. 
  match goal with |- context [?M !! ?k] => assert (M !! k = Some (m :: ms)) as -> by apply lookup_singleton end. reflexivity.
Qed.
Lemma ctor_safe a e iz c base indexes mapping : safe_ctor a e base indexes mapping -> safe_wiring (ctor_setup a iz c base indexes mapping) e [].
Proof.
  unfold safe_ctor, safe_wiring, ctor_setup. cbn [w_mapping w_indexes w_addressSize w_base]. destruct mapping as [|m ms]; [rewrite lookup_empty; auto|].
  intros H. match goal with |- context [?M !! ?k] => assert (M !! k = Some (m :: ms)) as -> by apply lookup_singleton end. exact H.
Qed.
Lemma untrain_addresses r x : r_addresses (snd (ram_untrain r x)) = r_addresses r.
Proof. unfold ram_untrain. destruct (getIndex r x); try reflexivity. destruct (_ !! _); [destruct (int_of _)|]; reflexivity. Qed.
Lemma op_mapping d o : disc_mapping (snd (dstep d o)) = disc_mapping d.
Proof.
  destruct o as [x|x]; cbn [dstep]; [apply train_wiring|]. unfold disc_untrain. destruct (checkEntrySize _ _); try reflexivity. destruct (int_of _); try reflexivity.
  pose proof (rams_update_addresses (fun r => ram_untrain r x) (d_rams d) (fun r => untrain_addresses r x)) as H. destruct (rams_update _ _) as [o rs]. cbn [snd] in *. exact H.
Qed.
Lemma ops_sound : forall h N d, Forall (fun o => readable (dop_image o)) h -> 0 <= N -> N + len h <= INT_MAX -> sound N d ->
  let '(os, d') := outcomes dstep d h in length os = length h /\ Forall served os /\ sound (N + len h) d' /\ disc_mapping d' = disc_mapping d.
Proof.
  induction h as [|o h IH]; intros N d Hh HN HM Hs.
  - cbn [outcomes]. change (len (@nil dop)) with 0. replace (N + 0) with N by lia. split; [reflexivity|]. split; [constructor|]. split; [exact Hs|reflexivity].
  - apply Forall_cons in Hh as [Ho Hh]. rewrite len_cons in *. pose proof (len_nonneg h). replace (N + (1 + len h)) with (N + 1 + len h) in * by lia.
    assert (H1 : served (fst (dstep d o)) /\ sound (N + 1) (snd (dstep d o))) by (destruct o as [x|x]; apply (disc_op_sound N d x Ho ltac:(lia) Hs)).
    pose proof (op_mapping d o) as Hmp. cbn [outcomes]. destruct (dstep d o) as [r d1]. cbn [fst snd] in *. destruct H1 as [S1 S2]. specialize (IH (N + 1) d1 Hh ltac:(lia) ltac:(lia) S2).
    destruct r as [[]|e| |]; try contradiction; destruct (outcomes dstep d1 h) as [os d2]; destruct IH as (I1 & I2 & I3 & I4); (split; [cbn; congruence|]; split; [apply Forall_cons; split; [exact I|exact I2]|]; split; [exact I3|congruence]).
Qed.

(** C180: the constructor with safely wired arguments returns or throws; on the discriminator it returns
    every train and untrain call with readable images returns or throws, and afterwards so do classify -
    whose votes are at most the number of calls - and getMentalImage. *)
Theorem C180_never_undefined : forall dr a e iz c indexes mapping base,
  valid_draw dr -> 0 <= e <= INT_MAX -> safe_ctor a e base indexes mapping ->
  served (disc_new dr a e iz c indexes mapping base) /\
  forall d0 h, disc_new dr a e iz c indexes mapping base = Ok d0 -> Forall (fun o => readable (dop_image o)) h -> len h <= INT_MAX ->
  let '(os, d) := outcomes dstep d0 h in
  length os = length h /\ Forall served os /\
  (forall x, readable x -> served (disc_classify d x) /\ forall vs, disc_classify d x = Ok vs -> Forall (fun v => v <= len h) vs) /\
  (forall iter, good_iter iter -> (forall p, len h * wires d0 p <= INT_MAX) -> served (disc_mental iter d)).
Proof.
  intros dr a e iz c indexes mapping base Hdr He Hs. rewrite ctor_is. apply (ctor_safe a e iz c) in Hs. split; [apply construct_served; assumption|].
  intros d0 h E Hh HM. pose proof (len_nonneg h). pose proof (new_sound _ _ _ _ _ Hdr He Hs E) as H0. pose proof (ops_sound h 0 d0 Hh ltac:(lia) ltac:(lia) H0) as H1.
  destruct (outcomes dstep d0 h) as [os d]. destruct H1 as (H1 & H2 & H3 & H4). change (0 + len h) with (len h) in H3. split; [exact H1|]. split; [exact H2|]. split.
  - intros x Hx. destruct (disc_classify_sound (len h) d x Hx H3) as [A B]. split; [exact A|]. intros vs Ev. exact (B vs Ev ltac:(lia)).
  - intros iter Hi Hw. apply (disc_mental_served iter (len h)); [exact Hi|lia|exact H3|]. intros p. unfold wires. rewrite H4. exact (Hw p).
Qed.
Print Assumptions C180_never_undefined.
(** With the default wiring and lists as images, only the
    sizes matter. *)
Theorem C180_default_wiring : forall dr a e iz c base,
  valid_draw dr -> 0 <= e -> e + a <= INT_MAX -> 0 <= a -> addressable base a ->
  served (disc_new dr a e iz c [] [] base) /\
  forall d0 h, disc_new dr a e iz c [] [] base = Ok d0 -> Forall (fun o => exists v, dop_image o = vec_image v /\ len v <= INT_MAX) h -> len h <= INT_MAX ->
  let '(os, d) := outcomes dstep d0 h in
  length os = length h /\ Forall served os /\ forall v, len v <= INT_MAX -> served (disc_classify d (vec_image v)).
Proof.
  intros dr a e iz c base Hdr He Hea Ha Hb. destruct (C180_never_undefined dr a e iz c [] [] base Hdr ltac:(lia)) as [H1 H2].
  { split; [exact Hb|]. split; [vm_compute; discriminate|]. split; [constructor|]. intros _. exact Hea. }
  split; [exact H1|]. intros d0 h E Hh HM. specialize (H2 d0 h E). assert (Hr : Forall (fun o => readable (dop_image o)) h).
  { eapply Forall_impl; [exact Hh|]. intros o (v & Eo & Hv). cbn beta. rewrite Eo. apply list_readable, Hv. }
  specialize (H2 Hr HM). destruct (outcomes dstep d0 h) as [os d]. destruct H2 as (A & B & C & _). split; [exact A|]. split; [exact B|]. intros v Hv. apply C, list_readable, Hv.
Qed.
Print Assumptions C180_default_wiring.
(** The hypotheses are met; the calls are answered or rejected in every way. *)
Example C180_witness : valid_draw some_draw /\ safe_ctor 2 5 3 [] [[0; 2; 4]; [1; 3]] /\ safe_ctor 2 5 3 [] [] /\ disc_new some_draw 2 5 true true [] [[0; 2; 4]; [1; 3]] 3 = Ok demo /\
  Forall (fun o => readable (dop_image o)) (first_s ++ List.concat later_s) /\ wires demo 3 = 1 /\
  fst (outcomes dstep demo (first_s ++ List.concat later_s)) = [Throw pos_exn; Throw entry_exn; Ok tt; Throw pos_exn; Ok tt; Throw pos_exn; Ok tt] /\
  disc_classify (snd (outcomes dstep demo (first_s ++ List.concat later_s))) half_bad = Throw pos_exn.
Proof.
  split; [apply some_draw_valid|]. split.
  { cbn [safe_ctor]. assert (H : forall n, n <= 3 -> 0 <= n -> addressable 3 n) by (intros n Hn H0; right; apply (Z.le_trans _ (3 ^ 3)); [apply Z.pow_le_mono_r; lia|vm_compute; discriminate]).
    apply Forall_cons. split; [|apply Forall_cons; split; [|constructor]]; (split; [vm_compute; discriminate|]; split; [apply H; vm_compute; discriminate|]; repeat (apply Forall_cons; split; [lia|]); constructor). }
  split. { cbn [safe_ctor]. split; [right; vm_compute; discriminate|]. split; [vm_compute; discriminate|]. split; [constructor|]. intros _. vm_compute. discriminate. }
  split; [vm_compute; reflexivity|]. split; [apply C179_witness|]. split; [vm_compute; reflexivity|]. split; vm_compute; reflexivity.
Qed.
