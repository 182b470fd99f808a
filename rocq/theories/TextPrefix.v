(** What json::parse makes of a text only depends on the characters up to the end of the value: a proper prefix of
    the text of an object or an array is refused, and so is such a text followed by anything else. *)
From Coq Require Import SpecFloat QArith Qcanon.
From Verif Require Import Prelude Bytes Float32 Json JsonText BytesProofs TextProofs TextString TextNumber TextParse TextTotal.
Local Open Scope nat_scope.

Lemma emit_app l o t r q : (forall t', o = Some (t', r) -> emit l o = Some (t, r) -> forall o', o' = Some (t', r ++ q) -> emit l o' = Some (t, r ++ q)).
Proof. intros t' -> H o' ->. cbn in *. congruence. Qed.
Lemma scan_string_app q : forall n s t r, length s <= n -> scan_string s = Some (t, r) -> scan_string (s ++ q) = Some (t, r ++ q).
Proof.
  induction n as [|n IH]; intros s t r Hn H; (destruct s as [|c s1]; [discriminate|]); cbn [length] in *; [lia|].
  change ((c :: s1) ++ q) with (c :: (s1 ++ q)). cbn [scan_string] in H |- *.
  repeat match type of H with
  | (if ?b then _ else _) = _ => destruct b
  | match ?x with _ => _ end = _ => destruct x; cbn [app]
  end; try discriminate; try (injection H as <- <-; reflexivity).
  all: apply emit_some in H as (t' & H & ->); apply IH in H; [rewrite H; reflexivity|cbn [length] in *; lia].
Qed.
Lemma scan_digits_app q s : forall st ty b ty' r, r <> [] -> scan_digits st ty s = Some (b, ty', r) -> scan_digits st ty (s ++ q) = Some (b, ty', r ++ q).
Proof.
  induction s as [|c s IH]; intros st ty b ty' r Hr H; cbn [scan_digits] in H.
  - destruct (number_end st); [|discriminate]. injection H as <- <- <-. congruence.
  - change ((c :: s) ++ q) with (c :: (s ++ q)). cbn [scan_digits]. destruct (number_step st c) as [st'| |]; [|injection H as <- <- <-; reflexivity|discriminate].
    destruct (scan_digits st' (enter st' ty) s) as [[[b' ty''] r']|] eqn:E; [|discriminate]. injection H as <- <- <-. apply IH in E; [|exact Hr]. rewrite E. reflexivity.
Qed.
Lemma scan_literal_app q w : forall s t t' s', good_token t' -> scan_literal w s t = (t', s') -> scan_literal w (s ++ q) t = (t', s' ++ q).
Proof.
  induction w as [|c w IH]; intros s t t' s' Hg H; cbn [scan_literal] in *; [injection H as <- <-; auto|].
  destruct s as [|c' s]; [injection H as <- <-; destruct Hg|]. cbn [app]. destruct (decide (c' = c)); [|injection H as <- <-; destruct Hg]. apply IH; assumption.
Qed.
Definition number (t : token) : Prop := match t with TInt _ | TFloat _ => True | _ => False end.
Lemma skip_space_app q s : skip_space s <> [] -> skip_space (s ++ q) = skip_space s ++ q.
Proof.
  induction s as [|c s IH]; [intros H; exfalso; apply H; reflexivity|]. cbn [app skip_space]. destruct (is_space c); [exact IH|reflexivity].
Qed.
Lemma scan_app T q s t r : scan T s = (t, r) -> good_token t -> (number t -> r <> []) -> scan T (s ++ q) = (t, r ++ q).
Proof.
  intros H Hg Hn. unfold scan in *. destruct (skip_space s) as [|c s1] eqn:Es; [injection H as <- <-; destruct Hg|].
  rewrite skip_space_app, Es by congruence. cbn [app]. cbv zeta in *.
  repeat match type of H with (if ?b then _ else _) = _ => destruct b end; try (injection H as <- <-; reflexivity || (exfalso; exact Hg)).
  1-3: apply scan_literal_app; assumption.
  - destruct (scan_string s1) as [[x r']|] eqn:E; injection H as <- <-; [|destruct Hg]. apply (scan_string_app q (length s1)) in E; [|lia]. rewrite E. reflexivity.
  - unfold scan_number in *.
    destruct (scan_digits _ _ s1) as [[[b ty] r']|] eqn:E; [|injection H as <- <-; destruct Hg].
    assert (Hr : r' <> []) by (injection H as <- <-; apply Hn; destruct ty; try destruct (_ <? _)%Z; try destruct (_ <=? _)%Z; exact I).
    apply (scan_digits_app q) in E; [|exact Hr]. rewrite E. injection H as <- <-. reflexivity.
Qed.

Lemma parse_not_good T fuel t s v : parse_value T fuel t s = Ok v -> good_token t.
Proof. destruct fuel; [discriminate|]. destruct t; cbn; try discriminate; auto. Qed.
Lemma parse_value_nil T fuel t v s : parse_value T fuel t [] = Ok (v, s) -> s = [].
Proof.
  destruct fuel as [|fuel]; [discriminate|]. destruct t; cbn; try discriminate; try (intros [= <- <-]; reflexivity).
  - destruct fuel as [|[|fuel]]; cbn; discriminate.
  - destruct fuel; cbn; discriminate.
  - destruct (f32_finite f); [|discriminate]. intros [= <- <-]. reflexivity.
Qed.
Lemma parse_elements_nil T fuel acc t v : parse_elements T fuel acc t [] <> Ok v.
Proof.
  destruct fuel as [|fuel]; [discriminate|]. cbn [parse_elements]. destruct (parse_value T fuel t []) as [[x s]|e|u|] eqn:E; try discriminate.
  apply parse_value_nil in E as ->. discriminate.
Qed.
Lemma parse_app T q : forall fuel,
  (forall t s j s', parse_value T fuel t s = Ok (j, s') -> parse_value T fuel t (s ++ q) = Ok (j, s' ++ q)) /\
  (forall acc t s j s', parse_members T fuel acc t s = Ok (j, s') -> parse_members T fuel acc t (s ++ q) = Ok (j, s' ++ q)) /\
  (forall acc t s j s', parse_elements T fuel acc t s = Ok (j, s') -> parse_elements T fuel acc t (s ++ q) = Ok (j, s' ++ q)).
Proof.
  induction fuel as [|fuel (IHv & IHm & IHe)]; [repeat split; discriminate|]. repeat split.
  - intros t s j s' H. destruct t; cbn [parse_value] in *; try discriminate; try (injection H as <- <-; reflexivity).
    + destruct (scan T s) as [t1 s1] eqn:E. destruct t1; try (rewrite (scan_app T q s _ s1 E I) by (intros []); (injection H as <- <-; reflexivity) || (apply IHe; exact H)).
      1,2: rewrite (scan_app T q s _ s1 E I) by (intros _ ->; apply parse_elements_nil in H; exact H); apply IHe; exact H.
      1,2: destruct fuel as [|[|fuel]]; discriminate.
    + destruct (scan T s) as [t1 s1] eqn:E. destruct t1; try (rewrite (scan_app T q s _ s1 E I) by (intros []); (injection H as <- <-; reflexivity) || (apply IHm; exact H)).
      all: destruct fuel as [|fuel]; discriminate.
    + destruct (f32_finite f); [|discriminate]. injection H as <- <-. reflexivity.
  - intros acc t s j s' H. cbn [parse_members] in *. destruct t as [| | | | | | | | |k| | | |]; try discriminate.
    destruct (scan T s) as [t1 s1] eqn:E1. destruct t1; try discriminate. rewrite (scan_app T q s _ s1 E1 I) by (intros []).
    destruct (scan T s1) as [t2 s2] eqn:E2.
    destruct (parse_value T fuel t2 s2) as [[v s3]|e|u|] eqn:Ev; try discriminate. cbn [rbind] in H.
    destruct (scan T s3) as [t3 s4] eqn:E3.
    assert (H3 : s3 <> []) by (intros ->; injection E3 as <- <-; discriminate).
    rewrite (scan_app T q s1 _ s2 E2 (parse_not_good _ _ _ _ _ Ev)) by (intros _ ->; apply parse_value_nil in Ev; congruence).
    rewrite (IHv _ _ _ _ Ev). cbn [rbind].
    destruct t3; try discriminate; rewrite (scan_app T q s3 _ s4 E3 I) by (intros []).
    + injection H as <- <-. reflexivity.
    + destruct (scan T s4) as [t4 s5] eqn:E4.
      assert (Hk : exists k', t4 = TString k') by (destruct fuel; [discriminate|]; cbn [parse_members] in H; destruct t4; try discriminate; eauto).
      destruct Hk as [k' ->]. rewrite (scan_app T q s4 _ s5 E4 I) by (intros []). apply IHm. exact H.
  - intros acc t s j s' H. cbn [parse_elements] in *. destruct (parse_value T fuel t s) as [[v s3]|e|u|] eqn:Ev; try discriminate. cbn [rbind] in H.
    rewrite (IHv _ _ _ _ Ev). cbn [rbind].
    destruct (scan T s3) as [t3 s4] eqn:E3. destruct t3; try discriminate; rewrite (scan_app T q s3 _ s4 E3 I) by (intros []).
    + injection H as <- <-. reflexivity.
    + destruct (scan T s4) as [t4 s5] eqn:E4.
      assert (Hk : good_token t4) by (destruct fuel; [discriminate|]; cbn [parse_elements] in H; destruct (parse_value T fuel t4 s5) as [[? ?]|?|?|] eqn:E; try discriminate; eapply parse_not_good; exact E).
      rewrite (scan_app T q s4 _ s5 E4 Hk) by (intros _ ->; apply parse_elements_nil in H; exact H). apply IHe. exact H.
Qed.
Lemma parse_more T : forall fuel,
  (forall t s x, parse_value T fuel t s = Ok x -> parse_value T (S fuel) t s = Ok x) /\
  (forall acc t s x, parse_members T fuel acc t s = Ok x -> parse_members T (S fuel) acc t s = Ok x) /\
  (forall acc t s x, parse_elements T fuel acc t s = Ok x -> parse_elements T (S fuel) acc t s = Ok x).
Proof.
  induction fuel as [|fuel (IHv & IHm & IHe)]; [repeat split; discriminate|]. repeat split.
  - intros t s x H. destruct t; cbn [parse_value] in H; remember (S fuel) as n eqn:En; cbn [parse_value]; subst n; try exact H.
    + destruct (scan T s) as [t1 s1]. destruct t1; try (apply IHe; exact H). exact H.
    + destruct (scan T s) as [t1 s1]. destruct t1; try (apply IHm; exact H). exact H.
  - intros acc t s x H. cbn [parse_members] in H. remember (S fuel) as n eqn:En. cbn [parse_members]. subst n. destruct t as [| | | | | | | | |k| | | |]; try discriminate.
    destruct (scan T s) as [t1 s1]. destruct t1; try discriminate. destruct (scan T s1) as [t2 s2].
    destruct (parse_value T fuel t2 s2) as [[v s3]|e|u|] eqn:Ev; try discriminate. rewrite (IHv _ _ _ Ev). cbn [rbind] in *.
    destruct (scan T s3) as [t3 s4]. destruct t3; try discriminate; [exact H|]. destruct (scan T s4) as [t4 s5]. apply IHm. exact H.
  - intros acc t s x H. cbn [parse_elements] in H. remember (S fuel) as n eqn:En. cbn [parse_elements]. subst n.
    destruct (parse_value T fuel t s) as [[v s3]|e|u|] eqn:Ev; try discriminate. rewrite (IHv _ _ _ Ev). cbn [rbind] in *.
    destruct (scan T s3) as [t3 s4]. destruct t3; try discriminate; [exact H|]. destruct (scan T s4) as [t4 s5]. apply IHe. exact H.
Qed.
Lemma parse_value_more T fuel fuel' t s x : fuel <= fuel' -> parse_value T fuel t s = Ok x -> parse_value T fuel' t s = Ok x.
Proof. intros H. induction H as [|m H IH]; [auto|]. intros Hx. apply (proj1 (parse_more T m)). auto. Qed.

(** Objects and arrays. *)
Definition composite (j : json) : Prop := match j with JArr _ | JObj _ => True | _ => False end.
Lemma dump_composite T pretty step cur j u : composite j -> dump_at pretty step cur j = Ok u ->
  exists c s, u = c :: s /\ byte c <> 239%Z /\ exists t, good_token t /\ forall r, scan T (c :: r) = (t, r).
Proof.
  intros Hc H. destruct j as [| | | | |[|x l]|[|x l]]; try destruct Hc.
  - injection H as <-. eexists _, _. split; [reflexivity|]. split; [vm_compute; congruence|]. exists TBeginArray. split; [exact I|reflexivity].
  - rewrite dump_arr in H. destruct (dump_list pretty step (cur + step) (x :: l)); try discriminate. injection H as <-.
    eexists _, _. split; [reflexivity|]. split; [vm_compute; congruence|]. exists TBeginArray. split; [exact I|reflexivity].
  - injection H as <-. eexists _, _. split; [reflexivity|]. split; [vm_compute; congruence|]. exists TBeginObject. split; [exact I|reflexivity].
  - rewrite dump_obj in H. destruct (dump_members pretty step (cur + step) (x :: l)); try discriminate. injection H as <-.
    eexists _, _. split; [reflexivity|]. split; [vm_compute; congruence|]. exists TBeginObject. split; [exact I|reflexivity].
Qed.
Lemma composite_reads T pretty step j u : json_wf T j -> composite j -> dump_at pretty step 0 j = Ok u ->
  exists c s t j', u = c :: s /\ byte c <> 239%Z /\ good_token t /\ (forall r, scan T (c :: r) = (t, r)) /\ retext j = Ok j' /\
    forall fuel, length u <= fuel -> parse_value T fuel t s = Ok (j', []).
Proof.
  intros Hw Hc H. destruct (dump_composite T pretty step 0 j u Hc H) as (c & s & -> & Hb & t & Hg & Ht).
  pose proof (all_faithful T pretty step j Hw 0%nat) as HF. destruct (retext j) as [j'|e|w|]; [|congruence|destruct HF|destruct HF].
  destruct HF as (u & Hu & _ & Hr). assert (u = c :: s) by congruence. subst u.
  exists c, s, t, j'. repeat split; try assumption. intros fuel Hf. destruct (Hr fuel [] Hf I) as (_ & _ & HP). rewrite app_nil_r, Ht in HP. exact HP.
Qed.
Lemma truncated T pretty step j u p q : json_wf T j -> composite j -> dump_at pretty step 0 j = Ok u -> u = p ++ q -> q <> [] ->
  json_parse T p = Throw EJsonParse \/ json_parse T p = Throw EJsonRange.
Proof.
  intros Hw Hc H Hu Hq. destruct (parse_ends T p) as [[x Hx]|Hx]; [exfalso|exact Hx].
  destruct (composite_reads T pretty step j u Hw Hc H) as (c & s & t & j' & Ec & Hb & Hg & Ht & _ & HP).
  destruct p as [|c' p]; [discriminate|]. rewrite Ec in Hu. injection Hu as <- ->.
  unfold json_parse in Hx. rewrite skip_bom_start, Ht in Hx by exact Hb.
  destruct (parse_value T (2 * length (c :: p) + 2) t p) as [[x' s']|e|w|] eqn:E; try discriminate.
  apply (proj1 (parse_app T q _)) in E. set (n := 2 * length (c :: p) + 2) in *. clearbody n.
  apply (parse_value_more T _ (n + length u)) in E; [|lia]. rewrite HP in E by lia. injection E as _ E. symmetry in E. apply app_nil in E as [_ E]. congruence.
Qed.
(** What may follow the text of a value: white space, and after a zero character anything. *)
Definition ignorable (r : str) : Prop := match skip_space r with [] => True | c :: _ => byte c = 0%Z end.
Lemma scan_end T r : (exists r', scan T r = (TEnd, r')) <-> ignorable r.
Proof.
  unfold scan, ignorable. destruct (skip_space r) as [|c s]; [split; eauto|]. cbv zeta. split.
  - intros [r' H]. unfold is_digit, in_range in H. remember (byte c) as b eqn:Eb.
    repeat match type of H with (if (?a =? ?k)%Z then _ else _) = _ => destruct (Z.eqb_spec a k) end; try (injection H as H; discriminate).
    1-3: exfalso; clear -H; match type of H with scan_literal ?w _ _ = _ => revert H; generalize s; generalize w end; intros w;
      induction w as [|d w IH]; intros s0; cbn [scan_literal]; [discriminate|]; destruct s0 as [|d' s0]; [discriminate|]; destruct (decide (d' = d)); [apply IH|discriminate].
    + destruct (scan_string s) as [[? ?]|]; discriminate.
    + destruct (_ || _)%bool; [|destruct (Z.eqb_spec b 0); [assumption|discriminate]].
      unfold scan_number in H. destruct (scan_digits _ _ s) as [[[b' ty] r'']|]; [|discriminate]. injection H as H _.
      destruct ty; try destruct (_ <? _)%Z; try destruct (_ <=? _)%Z; discriminate.
  - intros E. exists s. unfold is_digit, in_range. rewrite E. reflexivity.
Qed.
Lemma trailing T pretty step j u r : json_wf T j -> composite j -> dump_at pretty step 0 j = Ok u ->
  (ignorable r /\ json_parse T (u ++ r) = retext j) \/ (~ ignorable r /\ json_parse T (u ++ r) = Throw EJsonParse).
Proof.
  intros Hw Hc H. destruct (composite_reads T pretty step j u Hw Hc H) as (c & s & t & j' & -> & Hb & Hg & Ht & -> & HP).
  unfold json_parse. change ((c :: s) ++ r) with (c :: (s ++ r)). rewrite skip_bom_start, Ht by exact Hb.
  rewrite (proj1 (parse_app T r _) t s j' []) by (apply HP; cbn [length]; rewrite app_length; lia).
  cbn [rbind app]. pose proof (scan_end T r) as HE. destruct (scan T r) as [t' r']. destruct t'; try (right; split; [intros Hi; apply HE in Hi as [? Hi]; discriminate|reflexivity]).
  left. split; [|reflexivity]. apply HE. eauto.
Qed.
