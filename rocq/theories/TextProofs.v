(** Facts about the string helpers: substr, find, getline, '.'-separated fields. *)
From Verif Require Import Prelude Bytes Fs BytesProofs.

Fixpoint join_dots (l : list str) : str :=
  match l with
  | [] => []
  | [a] => a
  | a :: l' => a ++ "."%char :: join_dots l'
  end.
Lemma join_cons a b l : join_dots (a :: b :: l) = a ++ "."%char :: join_dots (b :: l).
Proof. reflexivity. Qed.

Lemma len_app {A} (a b : list A) : len (a ++ b) = len a + len b.
Proof. unfold len. rewrite app_length. lia. Qed.
Lemma len_cons {A} (x : A) l : len (x :: l) = 1 + len l.
Proof. unfold len. cbn [length]. lia. Qed.
Lemma len_nil {A} : len (@nil A) = 0.
Proof. reflexivity. Qed.
Lemma len_nonneg {A} (l : list A) : 0 <= len l.
Proof. unfold len. lia. Qed.

Lemma find_from_no c a i : c ∉ a -> find_char_from c a i = npos.
Proof.
  revert i; induction a as [|x a IH]; intros i Hn; [reflexivity|]. cbn.
  rewrite decide_False by (intros ->; apply Hn; left). apply IH. intros H; apply Hn; right; exact H.
Qed.
Lemma find_from_app c a r i : c ∉ a -> find_char_from c (a ++ c :: r) i = i + len a.
Proof.
  revert i; induction a as [|x a IH]; intros i Hn; cbn.
  - rewrite decide_True by reflexivity. rewrite len_nil. lia.
  - rewrite decide_False by (intros ->; apply Hn; left). rewrite IH by (intros H; apply Hn; right; exact H).
    rewrite len_cons. lia.
Qed.

Lemma drop_len {A} (a b : list A) : drop (Z.to_nat (len a)) (a ++ b) = b.
Proof. unfold len. rewrite Nat2Z.id. apply drop_app. Qed.
Lemma take_len {A} (a b : list A) : take (Z.to_nat (len a)) (a ++ b) = a.
Proof. unfold len. rewrite Nat2Z.id. apply take_app. Qed.

Lemma find_char_app c pre a r : len pre < W64 -> c ∉ a -> find_char c (pre ++ a ++ c :: r) (len pre) = len pre + len a.
Proof.
  intros Hp Hn. unfold find_char. pose proof (len_nonneg pre). rewrite u64_id by lia.
  rewrite !len_app, len_cons. pose proof (len_nonneg a). pose proof (len_nonneg r).
  destruct (Z.ltb_spec (len pre + (len a + (1 + len r))) (len pre)); [lia|].
  rewrite drop_len. apply find_from_app, Hn.
Qed.
Lemma find_char_none c pre a : len pre < W64 -> c ∉ a -> find_char c (pre ++ a) (len pre) = npos.
Proof.
  intros Hp Hn. unfold find_char. pose proof (len_nonneg pre). rewrite u64_id by lia.
  rewrite !len_app. pose proof (len_nonneg a).
  destruct (Z.ltb_spec (len pre + len a) (len pre)); [lia|].
  rewrite drop_len. apply find_from_no, Hn.
Qed.

Lemma substr_mid pre a r : len (pre ++ a ++ r) < W64 -> substr (pre ++ a ++ r) (len pre) (len a) = Ok a.
Proof.
  intros H. unfold substr. rewrite !len_app in *.
  pose proof (len_nonneg pre). pose proof (len_nonneg a). pose proof (len_nonneg r).
  rewrite !u64_id by lia.
  destruct (Z.ltb_spec (len pre + (len a + len r)) (len pre)); [lia|]. f_equal.
  rewrite drop_len. destruct (Z.leb_spec (len pre + (len a + len r)) (len a)).
  - assert (len r = 0) as Hr by lia. destruct r; [apply app_nil_r|unfold len in Hr; cbn in Hr; lia].
  - apply take_len.
Qed.
Lemma substr_rest pre a n : len (pre ++ a) < W64 -> len (pre ++ a) <= u64 n -> substr (pre ++ a) (len pre) n = Ok a.
Proof.
  intros H Hn. unfold substr. rewrite !len_app in *.
  pose proof (len_nonneg pre). pose proof (len_nonneg a).
  rewrite (u64_id (len pre)) by lia.
  destruct (Z.ltb_spec (len pre + len a) (len pre)); [lia|]. f_equal.
  destruct (Z.leb_spec (len pre + len a) (u64 n)); [|lia]. apply drop_len.
Qed.
Lemma u64_neg n : 0 < n <= W64 -> u64 (- n) = W64 - n.
Proof. intros H. unfold u64. symmetry. apply Z.mod_unique with (-1); lia. Qed.

Lemma getline_app c a r : c ∉ a -> getline c (a ++ c :: r) = (a, r, false).
Proof.
  induction a as [|x a IH]; intros Hn; cbn.
  - rewrite decide_True by reflexivity. reflexivity.
  - rewrite decide_False by (intros ->; apply Hn; left). rewrite IH by (intros H; apply Hn; right; exact H). reflexivity.
Qed.
Lemma getline_end c a : c ∉ a -> getline c a = (a, [], true).
Proof.
  induction a as [|x a IH]; intros Hn; cbn; [reflexivity|].
  rewrite decide_False by (intros ->; apply Hn; left). rewrite IH by (intros H; apply Hn; right; exact H). reflexivity.
Qed.

Lemma fields_fuel_join segs : forall fuel, segs <> [] -> Forall (fun s => "."%char ∉ s) segs ->
  (length (join_dots segs) < fuel)%nat -> fields_fuel fuel "." (join_dots segs) = segs.
Proof.
  induction segs as [|a [|b segs] IH]; intros fuel Hne Hall Hf; [congruence| |].
  - inversion Hall; subst. destruct fuel; [lia|]. cbn [fields_fuel join_dots].
    rewrite getline_end by assumption. reflexivity.
  - inversion Hall as [|? ? Ha Hr]; subst. rewrite join_cons in *. destruct fuel; [lia|]. cbn [fields_fuel].
    rewrite getline_app by assumption. f_equal. apply IH; [congruence|assumption|].
    rewrite app_length in Hf. cbn [length] in Hf. lia.
Qed.
Lemma fields_join segs : segs <> [] -> Forall (fun s => "."%char ∉ s) segs ->
  fields "." (join_dots segs) = segs.
Proof. intros H1 H2. apply fields_fuel_join; auto. Qed.

Lemma join_len_ge segs s : s ∈ segs -> len s <= len (join_dots segs).
Proof.
  induction segs as [|a [|b segs] IH]; intros H.
  - inversion H.
  - apply elem_of_list_singleton in H as ->. cbn. lia.
  - rewrite join_cons, len_app, len_cons. apply elem_of_cons in H as [->|H].
    + pose proof (len_nonneg (join_dots (b :: segs))). lia.
    + specialize (IH H). pose proof (len_nonneg a). lia.
Qed.

Lemma join_snoc segs a : segs <> [] -> join_dots (segs ++ [a]) = join_dots segs ++ "."%char :: a.
Proof.
  induction segs as [|x [|y segs] IH]; intros H; [congruence|reflexivity|].
  cbn [app] in *. rewrite !join_cons, IH by congruence. rewrite <- app_assoc. reflexivity.
Qed.
Lemma join_split segs1 segs2 : segs1 <> [] -> segs2 <> [] ->
  join_dots (segs1 ++ segs2) = join_dots segs1 ++ "."%char :: join_dots segs2.
Proof.
  intros H1 H2. induction segs1 as [|x [|y segs] IH]; [congruence| |].
  - destruct segs2; [congruence|reflexivity].
  - cbn [app] in *. rewrite !join_cons, IH by congruence. rewrite <- app_assoc. reflexivity.
Qed.
