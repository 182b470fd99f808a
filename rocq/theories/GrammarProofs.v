(** json_parse reads every JSON text as the value it stands for (SpecGrammar.v), C147. *)
From Coq Require Import SpecFloat QArith Qcanon.
From Verif Require Import Prelude Bytes Float32 Json JsonText BytesProofs TextProofs TextString SpecText TextNumber BleachProofs TextParse TextApiProofs GrisuSpec SpecUtf8 SpecGrammar GrammarLex.
Local Open Scope Z_scope.

(** ** White space *)
Lemma blank_space c : (c = to_char 32 \/ c = to_char 9 \/ c = to_char 10 \/ c = to_char 13) <-> is_space c = true.
Proof.
  unfold is_space. split; [intros [->|[->|[->| ->]]]; reflexivity|]. intros H.
  destruct (Z.eqb_spec (byte c) 32) as [E|]; [left|right]; [rewrite <- (to_char_byte c), E; reflexivity|].
  destruct (Z.eqb_spec (byte c) 9) as [E|]; [left|right]; [rewrite <- (to_char_byte c), E; reflexivity|].
  destruct (Z.eqb_spec (byte c) 10) as [E|]; [left|right]; [rewrite <- (to_char_byte c), E; reflexivity|].
  destruct (Z.eqb_spec (byte c) 13) as [E|]; [|discriminate]. rewrite <- (to_char_byte c), E; reflexivity.
Qed.
Lemma skip_blank w s : blank w -> skip_space (w ++ s) = skip_space s.
Proof. induction 1 as [|c w Hc _ IH]; [reflexivity|]. cbn [app skip_space]. apply blank_space in Hc. rewrite Hc. exact IH. Qed.
Lemma scan_blank T w s : blank w -> scan T (w ++ s) = scan T s.
Proof. intros H. unfold scan. rewrite skip_blank by exact H. reflexivity. Qed.
Lemma stop_blank w r : blank w -> stop r -> stop (w ++ r).
Proof. intros H Hr. destruct H as [|c w Hc _]; [exact Hr|]. cbn [app]. destruct Hc as [->|[->|[->| ->]]]; repeat split; vm_compute; congruence. Qed.
Lemma skip_split s : exists w, blank w /\ s = w ++ skip_space s /\ match skip_space s with [] => True | c :: _ => is_space c = false end.
Proof.
  induction s as [|c s (w & Hw & E & Hn)]; [exists []; repeat split; constructor|]. cbn [skip_space]. destruct (is_space c) eqn:Ec.
  - exists (c :: w). split; [constructor; [apply blank_space, Ec|exact Hw]|]. split; [cbn [app]; congruence|exact Hn].
  - exists []. split; [constructor|]. split; [reflexivity|exact Ec].
Qed.

(** ** Objects: members are emplaced one by one *)
Definition emplaced (acc ms : list (str * json)) : list (str * json) := fold_left (fun acc kv => jemplace kv.1 kv.2 acc) ms acc.
Lemma first_assoc k l : first_named k l = assoc k l.
Proof. induction l as [|[k' v] l IH]; [reflexivity|]. cbn [first_named assoc]. rewrite IH. reflexivity. Qed.
Lemma jinsert_sorted k v (l : list (str * json)) : StronglySorted str_lt l.*1 -> StronglySorted str_lt (jinsert k v l).*1.
Proof.
  intros Hs.
  assert (Hin : forall (l : list (str * json)) a, str_lt a k -> Forall (str_lt a) l.*1 -> Forall (str_lt a) (jinsert k v l).*1).
  { clear. intros l a Ha H. induction l as [|[k' v'] l IH]; [repeat constructor; assumption|]. rewrite fmap_cons in H. apply Forall_cons in H as [H1 H2]. cbn [jinsert].
    destruct (decide (k = k')); [constructor; assumption|]. destruct (str_leb k k'); rewrite ?fmap_cons; repeat constructor; auto. }
  induction l as [|[k' v'] l IH]; [repeat constructor|]. rewrite fmap_cons in Hs. apply StronglySorted_inv in Hs as [Hs Hk]. cbn [fst] in Hk. cbn [jinsert].
  destruct (decide (k = k')) as [->|Hne]; [rewrite fmap_cons; constructor; assumption|]. destruct (str_leb k k') eqn:E; rewrite !fmap_cons; cbn [fst].
  - assert (Hkk : str_lt k k') by (apply str_le_lt; [exact E|exact Hne]).
    constructor; [constructor; assumption|]. constructor; [exact Hkk|]. eapply Forall_impl; [exact Hk|]. intros x Hx. eapply Verif.WisardJson.str_lt_trans; eassumption.
  - constructor; [apply IH, Hs|]. apply Hin; [exact E|exact Hk].
Qed.
Lemma jinsert_assoc k v q l : assoc q (jinsert k v l) = if decide (k = q) then Some v else assoc q l.
Proof.
  induction l as [|[k' v'] l IH]; [reflexivity|]. cbn [jinsert]. destruct (decide (k = k')) as [->|Hne].
  - cbn [assoc]. destruct (decide (k' = q)); reflexivity.
  - destruct (str_leb k k'); cbn [assoc]; [reflexivity|]. rewrite IH. destruct (decide (k' = q)) as [->|]; [|reflexivity]. rewrite decide_False by exact Hne. reflexivity.
Qed.
Lemma emplaced_spec ms : forall acc, StronglySorted str_lt acc.*1 -> StronglySorted str_lt (emplaced acc ms).*1 /\
  forall k, first_named k (emplaced acc ms) = match first_named k acc with Some v => Some v | None => first_named k ms end.
Proof.
  induction ms as [|[k v] ms IH]; intros acc Hs; [split; [exact Hs|]; intros k; change (emplaced acc []) with acc; destruct (first_named k acc); reflexivity|].
  change (emplaced acc ((k, v) :: ms)) with (emplaced (jemplace k v acc) ms).
  destruct (IH (jemplace k v acc)) as [H1 H2]; [unfold jemplace; destruct (assoc k acc); [exact Hs|apply jinsert_sorted, Hs]|].
  split; [exact H1|]. intros q. rewrite H2. unfold jemplace. cbn [first_named]. rewrite (first_assoc q acc), (first_assoc q ms). destruct (assoc k acc) as [v0|] eqn:E; rewrite first_assoc.
  - destruct (assoc q acc) eqn:Eq; [reflexivity|]. rewrite decide_False by (intros ->; congruence). reflexivity.
  - rewrite jinsert_assoc. destruct (decide (k = q)) as [->|]; [rewrite E; reflexivity|]. reflexivity.
Qed.
Lemma emplaced_object ms : object_of ms (emplaced [] ms).
Proof. destruct (emplaced_spec ms [] ltac:(constructor)) as [H1 H2]. split; [exact H1|exact H2]. Qed.
Lemma named_in k (l : list (str * json)) v : first_named k l = Some v -> k ∈ l.*1.
Proof. induction l as [|[k' v'] l IH]; [discriminate|]. cbn [first_named]. rewrite fmap_cons. destruct (decide (k' = k)) as [->|]; intros H; [left|right; apply IH, H]. Qed.
Lemma sorted_unique (l1 l2 : list (str * json)) : StronglySorted str_lt l1.*1 -> StronglySorted str_lt l2.*1 ->
  (forall k, first_named k l1 = first_named k l2) -> l1 = l2.
Proof.
  assert (Hlt : forall k a (l : list (str * json)), Forall (str_lt k) l.*1 -> a ∈ l.*1 -> str_lt k a) by (intros k a l H Hi; rewrite Forall_forall in H; apply H, Hi).
  revert l2. induction l1 as [|[k1 v1] l1 IH]; intros [|[k2 v2] l2] H1 H2 H.
  - reflexivity.
  - specialize (H k2). cbn [first_named] in H. rewrite decide_True in H by reflexivity. discriminate.
  - specialize (H k1). cbn [first_named] in H. rewrite decide_True in H by reflexivity. discriminate.
  - rewrite fmap_cons in H1, H2. apply StronglySorted_inv in H1 as [S1 F1]. apply StronglySorted_inv in H2 as [S2 F2]. cbn [fst] in *.
    assert (E : k1 = k2).
    { destruct (decide (k1 = k2)) as [|N]; [assumption|]. exfalso. pose proof (H k1) as A. pose proof (H k2) as B. cbn [first_named] in A, B.
      rewrite decide_True in A by reflexivity. rewrite (decide_False (P := k2 = k1)) in A by congruence. symmetry in A. apply named_in in A.
      rewrite (decide_True (P := k2 = k2)) in B by reflexivity. rewrite (decide_False (P := k1 = k2)) in B by congruence. apply named_in in B.
      eapply Verif.BleachProofs.str_lt_irrefl. eapply Verif.WisardJson.str_lt_trans; [exact (Hlt _ _ _ F1 B)|exact (Hlt _ _ _ F2 A)]. }
    subst k2. pose proof (H k1) as A. cbn [first_named] in A. rewrite !decide_True in A by reflexivity. injection A as ->. f_equal. apply IH; [exact S1|exact S2|].
    intros k. pose proof (H k) as B. cbn [first_named] in B. destruct (decide (k1 = k)) as [->|]; [|exact B].
    assert (N : forall l : list (str * json), Forall (str_lt k) l.*1 -> first_named k l = None).
    { intros l Hl. destruct (first_named k l) eqn:E; [|reflexivity]. apply named_in in E. exfalso. eapply Verif.BleachProofs.str_lt_irrefl. exact (Hlt _ _ _ Hl E). }
    rewrite !N by assumption. reflexivity.
Qed.
Lemma object_unique ms l : object_of ms l -> l = emplaced [] ms.
Proof. intros [H1 H2]. destruct (emplaced_object ms) as [H3 H4]. apply sorted_unique; [exact H1|exact H3|]. intros k. rewrite H2, H4. reflexivity. Qed.

(** ** Every JSON text is read *)
Scheme value_ind' := Minimality for value Sort Prop
  with elements_ind' := Minimality for elements Sort Prop
  with members_ind' := Minimality for members Sort Prop.
Combined Scheme grammar_ind from value_ind', elements_ind', members_ind'.

Definition reads_elements (T : numtext) (t : str) (l : list json) : Prop := forall fuel acc r, (length t + 1 <= fuel)%nat ->
  let p := scan T (t ++ lit "]" ++ r) in fst p <> TEndArray /\ parse_elements T fuel acc (fst p) (snd p) = Ok (JArr (acc ++ l), r).
Definition reads_members (T : numtext) (t : str) (ms : list (str * json)) : Prop := forall fuel acc r, (length t + 1 <= fuel)%nat ->
  let p := scan T (t ++ lit "}" ++ r) in fst p <> TEndObject /\ parse_members T fuel acc (fst p) (snd p) = Ok (JObj (emplaced acc ms), r).
Lemma scan_quoted T raw k r : chars raw k -> scan T (quoted raw ++ r) = (TString k, r).
Proof.
  intros H. unfold quoted. change ((to_char 34 :: raw ++ [to_char 34]) ++ r) with (to_char 34 :: (raw ++ [to_char 34]) ++ r).
  rewrite <- app_assoc. unfold scan. rewrite skip_nonspace by reflexivity. cbv zeta. change (byte (to_char 34)) with 34. cbn [Z.eqb Pos.eqb app].
  rewrite (scan_chars raw k H). reflexivity.
Qed.
Lemma quoted_len raw : (2 <= length (quoted raw))%nat.
Proof. unfold quoted. cbn [length]. rewrite app_length. cbn [length]. lia. Qed.
Lemma stop_comma r : stop (lit "," ++ r). Proof. repeat split; vm_compute; congruence. Qed.
Lemma stop_close r : stop (lit "]" ++ r). Proof. repeat split; vm_compute; congruence. Qed.
Lemma stop_close_obj r : stop (lit "}" ++ r). Proof. repeat split; vm_compute; congruence. Qed.
Lemma scan_colon1 T r : scan T (lit ":" ++ r) = (TColon, r). Proof. reflexivity. Qed.

Lemma grammar_read T : (forall t j, value T t j -> reads T t j) /\ (forall t l, elements T t l -> reads_elements T t l) /\ (forall t ms, members T t ms -> reads_members T t ms).
Proof.
  apply grammar_ind.
  - intros [|fuel] r Hf Hr; [cbn in Hf; lia|]. repeat split; discriminate.
  - intros [|fuel] r Hf Hr; [cbn in Hf; lia|]. repeat split; discriminate.
  - intros [|fuel] r Hf Hr; [cbn in Hf; lia|]. repeat split; discriminate.
  - intros raw s H [|fuel] r Hf Hr; [pose proof (quoted_len raw); lia|]. rewrite (scan_quoted T raw s r H). repeat split; discriminate.
  - intros t j H fuel r Hf Hr. destruct (number_scan T t j r H Hr) as (tok & E & Hp & H1 & H2). rewrite E. cbn [fst snd].
    split; [exact H1|]. split; [exact H2|]. destruct fuel as [|fuel]; [|apply Hp]. exfalso. destruct t; [|cbn in Hf; lia].
    remember [] as t eqn:Et. destruct H as [sg ip Hsg Hi z Hz|sg ip fr fp ex x Hsg Hi _ _ _ f _];
      destruct (integer_digits_of ip Hi) as (c & ds & -> & _); destruct Hsg as [->| ->]; discriminate.
  - intros w Hw fuel r Hf Hr. rewrite <- !app_assoc. change (scan T (lit "[" ++ w ++ lit "]" ++ r)) with (TBeginArray, w ++ lit "]" ++ r). cbn [fst snd].
    split; [discriminate|]. split; [discriminate|]. destruct fuel as [|fuel]; [cbn in Hf; lia|]. cbn [parse_value]. rewrite scan_blank, scan_close by exact Hw. reflexivity.
  - intros t l _ IH fuel r Hf Hr. rewrite <- !app_assoc. change (scan T (lit "[" ++ t ++ lit "]" ++ r)) with (TBeginArray, t ++ lit "]" ++ r). cbn [fst snd].
    split; [discriminate|]. split; [discriminate|]. rewrite !app_length in Hf. change (length (lit "[")) with 1%nat in Hf. change (length (lit "]")) with 1%nat in Hf.
    destruct fuel as [|fuel]; [lia|]. destruct (IH fuel [] r ltac:(lia)) as [H1 H2]. cbn [parse_value]. destruct (scan T (t ++ lit "]" ++ r)) as [tok s].
    cbn [fst snd app] in *. destruct tok; try exact H2. congruence.
  - intros w Hw fuel r Hf Hr. rewrite <- !app_assoc. change (scan T (lit "{" ++ w ++ lit "}" ++ r)) with (TBeginObject, w ++ lit "}" ++ r). cbn [fst snd].
    split; [discriminate|]. split; [discriminate|]. destruct fuel as [|fuel]; [cbn in Hf; lia|]. cbn [parse_value]. rewrite scan_blank, scan_close_obj by exact Hw. reflexivity.
  - intros t ms l _ IH Ho fuel r Hf Hr. rewrite <- !app_assoc. change (scan T (lit "{" ++ t ++ lit "}" ++ r)) with (TBeginObject, t ++ lit "}" ++ r). cbn [fst snd].
    split; [discriminate|]. split; [discriminate|]. rewrite !app_length in Hf. change (length (lit "{")) with 1%nat in Hf. change (length (lit "}")) with 1%nat in Hf.
    destruct fuel as [|fuel]; [lia|]. destruct (IH fuel [] r ltac:(lia)) as [H1 H2]. rewrite (object_unique ms l Ho). cbn [parse_value]. destruct (scan T (t ++ lit "}" ++ r)) as [tok s].
    cbn [fst snd app] in *. destruct tok; try exact H2. congruence.
  - intros a t j b Ha _ IH Hb fuel acc r Hf. cbv zeta. rewrite <- !app_assoc, scan_blank by exact Ha. rewrite !app_length in Hf.
    destruct fuel as [|fuel]; [lia|]. destruct (IH fuel (b ++ lit "]" ++ r) ltac:(lia) (stop_blank _ _ Hb (stop_close r))) as (H1 & _ & H3). split; [exact H1|].
    cbn [parse_elements]. rewrite H3. cbn [rbind]. rewrite scan_blank, scan_close by exact Hb. reflexivity.
  - intros a t j b rest l Ha _ IH Hb _ IHr fuel acc r Hf. cbv zeta. rewrite <- !app_assoc, scan_blank by exact Ha. rewrite !app_length in Hf. change (length (lit ",")) with 1%nat in Hf.
    destruct fuel as [|fuel]; [lia|]. destruct (IH fuel (b ++ lit "," ++ rest ++ lit "]" ++ r) ltac:(lia) (stop_blank _ _ Hb (stop_comma _))) as (H1 & _ & H3). split; [exact H1|].
    cbn [parse_elements]. rewrite H3. cbn [rbind]. rewrite scan_blank, scan_comma by exact Hb. destruct (IHr fuel (acc ++ [j]) r ltac:(lia)) as [_ H4].
    destruct (scan T (rest ++ lit "]" ++ r)) as [tok s]. cbn [fst snd] in H4. rewrite H4, <- app_assoc. reflexivity.
  - intros a raw k b c t j d Ha Hk Hb Hc _ IH Hd fuel acc r Hf. cbv zeta. rewrite <- !app_assoc, scan_blank by exact Ha. rewrite !app_length in Hf. change (length (lit ":")) with 1%nat in Hf.
    rewrite (scan_quoted T raw k _ Hk). cbn [fst snd]. split; [discriminate|]. destruct fuel as [|fuel]; [lia|]. cbn [parse_members]. rewrite scan_blank, scan_colon1 by exact Hb.
    rewrite scan_blank by exact Hc. destruct (IH fuel (d ++ lit "}" ++ r) ltac:(lia) (stop_blank _ _ Hd (stop_close_obj r))) as (_ & _ & H3).
    destruct (scan T (t ++ d ++ lit "}" ++ r)) as [tok s]. cbn [fst snd] in H3. rewrite H3. cbn [rbind]. rewrite scan_blank, scan_close_obj by exact Hd. reflexivity.
  - intros a raw k b c t j d rest ms Ha Hk Hb Hc _ IH Hd _ IHr fuel acc r Hf. cbv zeta. rewrite <- !app_assoc, scan_blank by exact Ha. rewrite !app_length in Hf.
    change (length (lit ":")) with 1%nat in Hf. change (length (lit ",")) with 1%nat in Hf.
    rewrite (scan_quoted T raw k _ Hk). cbn [fst snd]. split; [discriminate|]. destruct fuel as [|fuel]; [lia|]. cbn [parse_members]. rewrite scan_blank, scan_colon1 by exact Hb.
    rewrite scan_blank by exact Hc. destruct (IH fuel (d ++ lit "," ++ rest ++ lit "}" ++ r) ltac:(lia) (stop_blank _ _ Hd (stop_comma _))) as (_ & _ & H3).
    destruct (scan T (t ++ d ++ lit "," ++ rest ++ lit "}" ++ r)) as [tok s]. cbn [fst snd] in H3. rewrite H3. cbn [rbind]. rewrite scan_blank, scan_comma by exact Hd.
    destruct (IHr fuel (jemplace k j acc) r ltac:(lia)) as [_ H4]. destruct (scan T (rest ++ lit "}" ++ r)) as [tok' s']. cbn [fst snd] in H4. exact H4.
Qed.

(** ** Only JSON texts are read *)
Definition lexeme (T : numtext) (x : str) (tok : token) : Prop :=
  match tok with
  | TBeginArray => x = lit "[" | TEndArray => x = lit "]" | TBeginObject => x = lit "{" | TEndObject => x = lit "}"
  | TColon => x = lit ":" | TComma => x = lit "," | TTrue => x = lit "true" | TFalse => x = lit "false" | TNull => x = lit "null"
  | TString s => exists raw, chars raw s /\ x = quoted raw
  | TInt z => number T x (JInt z)
  | TFloat f => f32_finite f = true -> number T x (JFloat f)
  | TEnd => x = [] \/ x = [to_char 0]
  | TError => False
  end.
Lemma literal_sound w : forall s t tok r, scan_literal w s t = (tok, r) -> tok <> TError -> tok = t /\ s = w ++ r.
Proof.
  induction w as [|c w IH]; intros s t tok r H N; cbn [scan_literal] in H; [injection H as <- <-; auto|].
  destruct s as [|c' s]; [injection H as <- <-; congruence|]. destruct (decide (c' = c)) as [->|]; [|injection H as <- <-; congruence].
  destruct (IH _ _ _ _ H N) as [-> ->]. auto.
Qed.
Lemma token_lexeme T sg ip fr fp ex x : (sg = [] \/ sg = lit "-") -> integer_part ip -> fraction fr fp -> exponent ex x ->
  lexeme T (sg ++ ip ++ fr ++ ex) (token_of T sg ip fr fp ex x).
Proof.
  intros Hsg Hi Hf He. unfold token_of. destruct (fr ++ ex) as [|c l] eqn:E.
  - apply app_eq_nil in E as [-> ->]. destruct Hf as [[_ ->]|(E & _)]; [|discriminate]. inversion He; subst x.
    destruct (andb _ _) eqn:Ez; cbn [lexeme].
    + rewrite !app_nil_r. apply number_int; [exact Hsg|exact Hi|]. lia.
    + intros Hfin. replace (sg ++ ip) with (sg ++ ip ++ [] ++ []) by (rewrite !app_nil_r; reflexivity). apply (number_float T sg ip [] [] [] 0); [exact Hsg|exact Hi|left; auto|constructor| |exact Hfin].
      intros _ _. cbv zeta. lia.
  - cbn [lexeme]. intros Hfin. rewrite <- E. apply (number_float T sg ip fr fp ex x); [exact Hsg|exact Hi|exact Hf|exact He| |exact Hfin]. intros -> ->. discriminate.
Qed.
Lemma scan_sound T s tok r : scan T s = (tok, r) -> tok <> TError -> exists w x, blank w /\ s = w ++ x ++ r /\ lexeme T x tok.
Proof.
  intros H N. destruct (skip_split s) as (w & Hw & E & Hn). unfold scan in H. destruct (skip_space s) as [|c s'] eqn:Es.
  { injection H as <- <-. exists w, []. split; [exact Hw|]. split; [rewrite E; reflexivity|left; reflexivity]. }
  assert (G : exists x, c :: s' = x ++ r /\ lexeme T x tok); [|destruct G as (x & Ex & Hx); exists w, x; split; [exact Hw|]; split; [rewrite E, Ex; reflexivity|exact Hx]].
  clear E Es Hn Hw w s. cbv zeta in H.
  assert (Hc : forall z, byte c = z -> c = to_char z) by (intros z <-; symmetry; apply to_char_byte).
  repeat match type of H with
  | (if byte c =? ?z then _ else _) = _ => destruct (Z.eqb_spec (byte c) z) as [Ec|_]; [apply Hc in Ec; subst c|]
  end.
  all: try (injection H as <- <-; eexists [_]; split; [reflexivity|reflexivity]).
  all: try (apply literal_sound in H as [-> ->]; [|exact N]; first [exists (lit "true"); split; reflexivity|exists (lit "false"); split; reflexivity|exists (lit "null"); split; reflexivity]).
  - destruct (scan_string s') as [[t r']|] eqn:Et; [|injection H as <- <-; congruence]. injection H as <- <-.
    destruct (chars_scan (length s') s' t r' ltac:(lia) Et) as (raw & -> & Hch). exists (quoted raw). split; [unfold quoted; cbn [app]; rewrite <- app_assoc; reflexivity|].
    exists raw. auto.
  - destruct (_ || _) eqn:Ed.
    + destruct (scan_number_sound T c s' tok r Ed H N) as (sg & ip & fr & fp & ex & x & E & Hsg & Hi & Hf & He & ->). eexists. split; [exact E|]. apply token_lexeme; assumption.
    + destruct (Z.eqb_spec (byte c) 0) as [Ec|_]; [|injection H as <- <-; congruence]. injection H as <- <-. apply Hc in Ec. subst c. exists [to_char 0]. split; [reflexivity|right; reflexivity].
Qed.
