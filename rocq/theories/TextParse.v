(** json::parse(j.dump()) is what Json.retext says. *)
From Coq Require Import SpecFloat QArith Qcanon.
From Verif Require Import Prelude Bytes Float32 Json JsonText BytesProofs TextProofs TextString SpecText TextNumber.
Local Open Scope Z_scope.

Fixpoint json_rect' (P : json -> Prop) (h0 : P JNull) (h1 : forall b, P (JBool b)) (h2 : forall z, P (JInt z)) (h3 : forall f, P (JFloat f))
    (h4 : forall s, P (JStr s)) (h5 : forall l, Forall P l -> P (JArr l)) (h6 : forall l, Forall (fun kv => P kv.2) l -> P (JObj l)) (j : json) : P j :=
  let rec := json_rect' P h0 h1 h2 h3 h4 h5 h6 in
  match j with
  | JNull => h0 | JBool b => h1 b | JInt z => h2 z | JFloat f => h3 f | JStr s => h4 s
  | JArr l => h5 l ((fix go l : Forall P l := match l with [] => Forall_nil_2 _ | x :: l' => Forall_cons_2 _ _ _ (rec x) (go l') end) l)
  | JObj l => h6 l ((fix go l : Forall (fun kv => P kv.2) l := match l with [] => Forall_nil_2 _ | x :: l' => Forall_cons_2 _ _ _ (rec x.2) (go l') end) l)
  end.

(** JSON values the program can hold: integers are 64 bit, floats are doubles,
    the members of an object are in ascending key order (object_t is a std::map). *)
Fixpoint json_wf (T : numtext) (j : json) : Prop :=
  match j with
  | JInt z => in_json_int z
  | JFloat f => correct_strtod T /\ is_f64 f
  | JArr l => (fix go l := match l with [] => True | x :: l' => json_wf T x /\ go l' end) l
  | JObj l => StronglySorted str_lt l.*1 /\ (fix go (l : list (str * json)) := match l with [] => True | (k, x) :: l' => json_wf T x /\ go l' end) l
  | _ => True
  end.
Lemma json_wf_arr T l : json_wf T (JArr l) <-> Forall (json_wf T) l.
Proof. cbn [json_wf]. induction l as [|x l IH]; [split; auto|]. rewrite Forall_cons, <- IH. reflexivity. Qed.
Lemma json_wf_obj T l : json_wf T (JObj l) <-> StronglySorted str_lt l.*1 /\ Forall (fun kv => json_wf T kv.2) l.
Proof.
  cbn [json_wf]. apply and_iff_compat_l. induction l as [|[k x] l IH]; [split; auto|]. rewrite Forall_cons, <- IH. reflexivity.
Qed.

Fixpoint retext_list (l : list json) : res (list json) :=
  match l with [] => Ok [] | x :: xs => let* y := retext x in let* ys := retext_list xs in Ok (y :: ys) end.
Fixpoint retext_members (l : list (str * json)) : res (list (str * json)) :=
  match l with
  | [] => Ok []
  | (k, x) :: xs => if utf8_ok k then let* y := retext x in let* ys := retext_members xs in Ok ((k, y) :: ys) else Throw EJsonType
  end.
Lemma retext_arr l : retext (JArr l) = let* l' := retext_list l in Ok (JArr l'). Proof. reflexivity. Qed.
Lemma retext_obj l : retext (JObj l) = let* l' := retext_members l in Ok (JObj l'). Proof. reflexivity. Qed.

Section dump.
Context (T : numtext) (pretty : bool) (step : nat).
Definition dump_list (new : nat) : list json -> res (list str) := fix go (l : list json) : res (list str) :=
  match l with
  | [] => Ok []
  | x :: l' => let* t := dump_at pretty step new x in let* ts := go l' in Ok ((newline pretty new ++ t) :: ts)
  end.
Lemma dump_list_cons new x l : dump_list new (x :: l) =
  let* t := dump_at pretty step new x in let* ts := dump_list new l in Ok ((newline pretty new ++ t) :: ts).
Proof. reflexivity. Qed.
Definition dump_members (new : nat) : list (str * json) -> res (list str) := fix go (l : list (str * json)) : res (list str) :=
  match l with
  | [] => Ok []
  | (k, x) :: l' =>
      let* q := quote k in
      let* t := dump_at pretty step new x in
      let* ts := go l' in
      Ok ((newline pretty new ++ q ++ (if pretty then lit ": " else lit ":") ++ t) :: ts)
  end.
Lemma dump_members_cons new k x l : dump_members new ((k, x) :: l) =
  let* q := quote k in let* t := dump_at pretty step new x in let* ts := dump_members new l in
  Ok ((newline pretty new ++ q ++ (if pretty then lit ": " else lit ":") ++ t) :: ts).
Proof. reflexivity. Qed.
Lemma dump_arr cur x l : dump_at pretty step cur (JArr (x :: l)) =
  let* ts := dump_list (cur + step) (x :: l) in Ok (lit "[" ++ join_comma ts ++ newline pretty cur ++ lit "]").
Proof. reflexivity. Qed.
Lemma dump_obj cur x l : dump_at pretty step cur (JObj (x :: l)) =
  let* ts := dump_members (cur + step) (x :: l) in Ok (lit "{" ++ join_comma ts ++ newline pretty cur ++ lit "}").
Proof. reflexivity. Qed.

Lemma scan_newline n s : scan T (newline pretty n ++ s) = scan T s.
Proof.
  unfold newline. destruct pretty; [|reflexivity].
  assert (E : forall m, skip_space (repeat (to_char 32) m ++ s) = skip_space s) by (induction m as [|m IH]; [reflexivity|exact IH]).
  unfold scan. change (skip_space ((to_char 10 :: repeat (to_char 32) n) ++ s)) with (skip_space (repeat (to_char 32) n ++ s)). rewrite E. reflexivity.
Qed.
Lemma scan_char c t r : (forall s, scan T (c :: s) = (t, s)) -> scan T ([c] ++ r) = (t, r).
Proof. intros H. apply H. Qed.
Lemma scan_comma s : scan T (lit "," ++ s) = (TComma, s). Proof. reflexivity. Qed.
Lemma scan_close s : scan T (lit "]" ++ s) = (TEndArray, s). Proof. reflexivity. Qed.
Lemma scan_close_obj s : scan T (lit "}" ++ s) = (TEndObject, s). Proof. reflexivity. Qed.
Lemma scan_colon s : exists s', scan T ((if pretty then lit ": " else lit ":") ++ s) = (TColon, s') /\ scan T s' = scan T s.
Proof. destruct pretty; eexists; (split; [reflexivity|reflexivity]). Qed.
Lemma stop_newline n c s : stop (c :: s) -> stop (newline pretty n ++ c :: s).
Proof. unfold newline. destruct pretty; [|auto]. intros _. repeat split. vm_compute. congruence. Qed.

(** A text reads back as j'. *)
Definition reads (t : str) (j' : json) : Prop :=
  forall fuel r, (length t <= fuel)%nat -> stop r ->
    fst (scan T (t ++ r)) <> TEndArray /\ fst (scan T (t ++ r)) <> TEndObject /\ parse_value T fuel (fst (scan T (t ++ r))) (snd (scan T (t ++ r))) = Ok (j', r).
Definition faithful (j : json) : Prop := json_wf T j -> forall cur,
  match retext j with
  | Ok j' => exists t, dump_at pretty step cur j = Ok t /\ t <> [] /\ reads t j'
  | Throw e => dump_at pretty step cur j = Throw e
  | _ => False
  end.

Lemma faithful_list l : Forall faithful l -> Forall (json_wf T) l -> forall new cur,
  match retext_list l with
  | Ok l' => exists ts, dump_list new l = Ok ts /\ length ts = length l /\
      (l <> [] -> forall fuel acc r, (length (join_comma ts) + 1 <= fuel)%nat ->
         let '(t, s) := scan T (join_comma ts ++ newline pretty cur ++ lit "]" ++ r) in
         t <> TEndArray /\ parse_elements T fuel acc t s = Ok (JArr (acc ++ l'), r))
  | Throw e => dump_list new l = Throw e
  | _ => False
  end.
Proof.
  intros Hf Hw new cur. induction l as [|x l IH]; [exists []; repeat split; congruence|].
  apply Forall_cons in Hf as [Hx Hf]. apply Forall_cons in Hw as [Wx Hw]. specialize (IH Hf Hw). specialize (Hx Wx new).
  cbn [retext_list]. rewrite dump_list_cons. destruct (retext x) as [x'|e|u|]; cbn [rbind]; [|rewrite Hx; reflexivity|exact Hx|exact Hx].
  destruct Hx as (t & -> & Htn & Hr). cbn [rbind]. destruct (retext_list l) as [l'|e|u|] eqn:El; cbn [rbind]; [|rewrite IH; reflexivity|exact IH|exact IH].
  destruct IH as (ts & -> & Hlen & IH). cbn [rbind]. eexists. split; [reflexivity|]. split; [cbn [length]; lia|].
  intros _ fuel acc r Hfuel. destruct l as [|y l].
  - destruct ts; [|cbn in Hlen; lia]. cbn [join_comma] in *. rewrite <- app_assoc, scan_newline.
    destruct fuel as [|fuel]; [lia|]. rewrite app_length in Hfuel.
    destruct (Hr fuel (newline pretty cur ++ lit "]" ++ r)) as (H1 & _ & H3); [lia|apply stop_newline; repeat split; vm_compute; congruence|].
    destruct (scan T (t ++ newline pretty cur ++ lit "]" ++ r)) as [tok s]. cbn [fst snd] in *. split; [exact H1|]. cbn [parse_elements]. rewrite H3. cbn [rbind].
    rewrite scan_newline, scan_close.
    injection El as <-. reflexivity.
  - destruct ts as [|ty ts]; [cbn in Hlen; lia|]. change (join_comma ((newline pretty new ++ t) :: ty :: ts)) with ((newline pretty new ++ t) ++ lit "," ++ join_comma (ty :: ts)) in *.
    rewrite <- !app_assoc, scan_newline. destruct fuel as [|fuel]; [lia|]. rewrite !app_length in Hfuel. change (length (lit ",")) with 1%nat in Hfuel.
    destruct (Hr fuel (lit "," ++ join_comma (ty :: ts) ++ newline pretty cur ++ lit "]" ++ r)) as (H1 & _ & H3); [lia|repeat split; vm_compute; congruence|].
    destruct (scan T (t ++ lit "," ++ join_comma (ty :: ts) ++ newline pretty cur ++ lit "]" ++ r)) as [tok s]. cbn [fst snd] in *. split; [exact H1|]. cbn [parse_elements]. rewrite H3. cbn [rbind].
    rewrite scan_comma. specialize (IH ltac:(discriminate) fuel (acc ++ [x']) r ltac:(lia)).
    destruct (scan T (join_comma (ty :: ts) ++ newline pretty cur ++ lit "]" ++ r)) as [tok' s']. destruct IH as [_ ->].
    rewrite <- app_assoc. reflexivity.
Qed.

Lemma jemplace_last k v acc : Forall (fun kv => str_lt kv.1 k) acc -> jemplace k v acc = acc ++ [(k, v)].
Proof.
  intros H. unfold jemplace.
  assert (Ha : assoc k acc = None /\ jinsert k v acc = acc ++ [(k, v)]).
  { induction H as [|[k' v'] acc Hk H [IH1 IH2]]; [auto|]. unfold str_lt in Hk. cbn [fst] in Hk. cbn [assoc jinsert app].
    assert (Hne : k <> k') by (intros ->; revert Hk; clear; induction k' as [|c k' IH]; cbn; [discriminate|]; rewrite Z.ltb_irrefl, Z.eqb_refl; exact IH).
    rewrite (decide_False (P := k' = k)) by congruence. rewrite (decide_False (P := k = k')) by exact Hne. rewrite Hk, IH2. auto. }
  destruct Ha as [-> ->]. reflexivity.
Qed.
Lemma faithful_members l : Forall (fun kv => faithful kv.2) l -> Forall (fun kv => json_wf T kv.2) l -> StronglySorted str_lt l.*1 -> forall new cur,
  match retext_members l with
  | Ok l' => exists ts, dump_members new l = Ok ts /\ length ts = length l /\ l'.*1 = l.*1 /\
      (l <> [] -> forall fuel acc r, (length (join_comma ts) + 1 <= fuel)%nat -> Forall (fun kv => Forall (fun k' => str_lt kv.1 k') l.*1) acc ->
         let '(t, s) := scan T (join_comma ts ++ newline pretty cur ++ lit "}" ++ r) in
         t <> TEndObject /\ parse_members T fuel acc t s = Ok (JObj (acc ++ l'), r))
  | Throw e => dump_members new l = Throw e
  | _ => False
  end.
Proof.
  intros Hf Hw Hs new cur. induction l as [|[k x] l IH]; [exists []; repeat split; congruence|].
  apply Forall_cons in Hf as [Hx Hf]. apply Forall_cons in Hw as [Wx Hw]. rewrite fmap_cons in Hs. apply StronglySorted_inv in Hs as [Hs Hk].
  specialize (IH Hf Hw Hs). specialize (Hx Wx new). cbn [fst snd] in *.
  cbn [retext_members]. rewrite dump_members_cons. destruct (quote k) as [q|e|u|] eqn:Eq; rewrite quote_eq in Eq; destruct (utf8_ok k) eqn:Eu; try discriminate.
  2:{ injection Eq as <-. reflexivity. }
  cbn [rbind]. destruct (retext x) as [x'|e|u|]; cbn [rbind]; [|rewrite Hx; reflexivity|exact Hx|exact Hx].
  destruct Hx as (t & -> & Htn & Hr). cbn [rbind]. destruct (retext_members l) as [l'|e|u|] eqn:El; cbn [rbind]; [|rewrite IH; reflexivity|exact IH|exact IH].
  destruct IH as (ts & -> & Hlen & Hkeys & IH). cbn [rbind]. eexists. split; [reflexivity|]. split; [cbn [length]; lia|].
  split; [rewrite !fmap_cons, Hkeys; reflexivity|].
  assert (Eq' : quote k = Ok q) by (rewrite quote_eq, Eu; exact Eq). clear Eq.
  intros _ fuel acc r Hfuel Hacc.
  assert (Hlast : jemplace k x' acc = acc ++ [(k, x')]).
  { apply jemplace_last. eapply Forall_impl; [exact Hacc|]. intros kv Hkv. rewrite fmap_cons in Hkv. exact (Forall_inv Hkv). }
  destruct l as [|y l].
  - destruct ts; [|cbn in Hlen; lia]. cbn [join_comma] in *. rewrite <- !app_assoc, scan_newline.
    destruct (quote_scan T k q ((if pretty then lit ": " else lit ":") ++ t ++ newline pretty cur ++ lit "}" ++ r) Eq') as (_ & _ & ->).
    split; [discriminate|]. destruct fuel as [|fuel]; [lia|]. rewrite !app_length in Hfuel. cbn [parse_members].
    destruct (scan_colon (t ++ newline pretty cur ++ lit "}" ++ r)) as (s' & -> & ->).
    destruct (Hr fuel (newline pretty cur ++ lit "}" ++ r)) as (_ & _ & H3); [lia|apply stop_newline; repeat split; vm_compute; congruence|].
    destruct (scan T (t ++ newline pretty cur ++ lit "}" ++ r)) as [tok s]. cbn [fst snd] in *. rewrite H3. cbn [rbind].
    rewrite scan_newline, scan_close_obj, Hlast. injection El as <-. reflexivity.
  - destruct ts as [|ty ts]; [cbn in Hlen; lia|].
    change (join_comma ((newline pretty new ++ q ++ (if pretty then lit ": " else lit ":") ++ t) :: ty :: ts)) with
      ((newline pretty new ++ q ++ (if pretty then lit ": " else lit ":") ++ t) ++ lit "," ++ join_comma (ty :: ts)) in *.
    rewrite <- !app_assoc, scan_newline.
    destruct (quote_scan T k q ((if pretty then lit ": " else lit ":") ++ t ++ lit "," ++ join_comma (ty :: ts) ++ newline pretty cur ++ lit "}" ++ r) Eq') as (_ & _ & ->).
    split; [discriminate|]. destruct fuel as [|fuel]; [lia|]. rewrite !app_length in Hfuel. change (length (lit ",")) with 1%nat in Hfuel. cbn [parse_members].
    destruct (scan_colon (t ++ lit "," ++ join_comma (ty :: ts) ++ newline pretty cur ++ lit "}" ++ r)) as (s' & -> & ->).
    destruct (Hr fuel (lit "," ++ join_comma (ty :: ts) ++ newline pretty cur ++ lit "}" ++ r)) as (_ & _ & H3); [lia|repeat split; vm_compute; congruence|].
    destruct (scan T (t ++ lit "," ++ join_comma (ty :: ts) ++ newline pretty cur ++ lit "}" ++ r)) as [tok s]. cbn [fst snd] in *. rewrite H3. cbn [rbind].
    rewrite scan_comma, Hlast. specialize (IH ltac:(discriminate) fuel (acc ++ [(k, x')]) r ltac:(lia)).
    assert (Hacc' : Forall (fun kv => Forall (fun k' => str_lt kv.1 k') (y :: l).*1) (acc ++ [(k, x')])).
    { apply Forall_app. split; [|constructor; [exact Hk|constructor]]. eapply Forall_impl; [exact Hacc|]. intros kv Hkv. rewrite fmap_cons in Hkv. exact (Forall_inv_tail Hkv). }
    specialize (IH Hacc').
    destruct (scan T (join_comma (ty :: ts) ++ newline pretty cur ++ lit "}" ++ r)) as [tok' s2]. destruct IH as [_ ->].
    rewrite <- app_assoc. reflexivity.
Qed.

Lemma all_faithful j : faithful j.
Proof.
  induction j using json_rect'; intros Hw cur.
  - exists (lit "null"). split; [reflexivity|]. split; [discriminate|]. intros [|fuel] r Hf Hr; [cbn in Hf; lia|]. repeat split; discriminate.
  - destruct b; eexists; (split; [reflexivity|]); (split; [discriminate|]); intros [|fuel] r Hf Hr; try (cbn in Hf; lia); repeat split; discriminate.
  - destruct (dump_integer_scan T z Hw) as (t & E & Hn & H). exists t. split; [exact E|]. split; [exact Hn|]. intros fuel r Hf Hr.
    rewrite (H r Hr). cbn [fst snd]. destruct t; [congruence|]. destruct fuel; [cbn in Hf; lia|]. repeat split; discriminate.
  - destruct (dump_float_scan T f (proj1 Hw) (proj2 Hw)) as (t & E & Hn & H). cbn [retext]. exists t. split; [exact E|]. split; [exact Hn|]. intros fuel r Hf Hr.
    rewrite (H r Hr). cbn [fst snd]. destruct t; [congruence|]. destruct fuel; [cbn in Hf; lia|].
    destruct (f32_finite f) eqn:Ef; cbn [parse_value]; rewrite ?Ef; repeat split; discriminate.
  - cbn [retext dump_at]. pose proof (quote_eq s) as Eq. destruct (utf8_ok s) eqn:Eu; [|exact Eq].
    eexists. split; [exact Eq|]. split; [discriminate|]. intros fuel r Hf Hr.
    destruct (quote_scan T s _ r Eq) as (_ & _ & E). rewrite E. cbn [fst snd]. destruct fuel; [cbn in Hf; lia|]. repeat split; discriminate.
  - rewrite retext_arr. apply json_wf_arr in Hw. destruct l as [|x l].
    { exists (lit "[]"). split; [reflexivity|]. split; [discriminate|]. intros [|fuel] r Hf Hr; [cbn in Hf; lia|]. repeat split; discriminate. }
    rewrite dump_arr. pose proof (faithful_list (x :: l) H Hw (cur + step) cur) as HL.
    destruct (retext_list (x :: l)) as [l'|e|u|]; cbn [rbind]; [|rewrite HL; reflexivity|exact HL|exact HL].
    destruct HL as (ts & -> & _ & HL). cbn [rbind]. eexists. split; [reflexivity|]. split; [discriminate|]. intros fuel r Hf Hr.
    rewrite <- !app_assoc. change (scan T (lit "[" ++ join_comma ts ++ newline pretty cur ++ lit "]" ++ r)) with (TBeginArray, join_comma ts ++ newline pretty cur ++ lit "]" ++ r).
    cbn [fst snd]. split; [discriminate|]. split; [discriminate|]. rewrite !app_length in Hf. change (length (lit "[")) with 1%nat in Hf. change (length (lit "]")) with 1%nat in Hf.
    destruct fuel as [|fuel]; [lia|]. specialize (HL ltac:(discriminate) fuel [] r ltac:(lia)). cbn [parse_value].
    destruct (scan T (join_comma ts ++ newline pretty cur ++ lit "]" ++ r)) as [tok s]. destruct HL as [Hne HL]. cbn [app] in HL.
    destruct tok; try exact HL. congruence.
  - rewrite retext_obj. apply json_wf_obj in Hw as [Hs Hw]. destruct l as [|x l].
    { exists (lit "{}"). split; [reflexivity|]. split; [discriminate|]. intros [|fuel] r Hf Hr; [cbn in Hf; lia|]. repeat split; discriminate. }
    rewrite dump_obj. pose proof (faithful_members (x :: l) H Hw Hs (cur + step) cur) as HL.
    destruct (retext_members (x :: l)) as [l'|e|u|]; cbn [rbind]; [|rewrite HL; reflexivity|exact HL|exact HL].
    destruct HL as (ts & -> & _ & _ & HL). cbn [rbind]. eexists. split; [reflexivity|]. split; [discriminate|]. intros fuel r Hf Hr.
    rewrite <- !app_assoc. change (scan T (lit "{" ++ join_comma ts ++ newline pretty cur ++ lit "}" ++ r)) with (TBeginObject, join_comma ts ++ newline pretty cur ++ lit "}" ++ r).
    cbn [fst snd]. split; [discriminate|]. split; [discriminate|]. rewrite !app_length in Hf. change (length (lit "{")) with 1%nat in Hf. change (length (lit "}")) with 1%nat in Hf.
    destruct fuel as [|fuel]; [lia|]. specialize (HL ltac:(discriminate) fuel [] r ltac:(lia) ltac:(constructor)). cbn [parse_value].
    destruct (scan T (join_comma ts ++ newline pretty cur ++ lit "}" ++ r)) as [tok s]. destruct HL as [Hne HL]. cbn [app] in HL.
    destruct tok; try exact HL. congruence.
Qed.
End dump.

(** A text that starts with a byte order mark is not one that dump writes. *)
Lemma skip_bom_start c s : byte c <> 239 -> skip_bom (c :: s) = c :: s.
Proof. intros H. destruct s as [|b [|d s]]; try reflexivity. cbn [skip_bom]. rewrite (proj2 (Z.eqb_neq _ 239) H). reflexivity. Qed.
Lemma scan_bom T c s : byte c = 239 -> fst (scan T (c :: s)) = TError.
Proof.
  intros H. unfold scan. assert (E : is_space c = false) by (unfold is_space; rewrite H; reflexivity). rewrite skip_nonspace by exact E.
  cbv zeta. rewrite H. unfold is_digit, in_range. rewrite H. reflexivity.
Qed.
Lemma dump_parse T pretty step j : json_wf T j -> (let* t := dump_at pretty step 0 j in json_parse T t) = retext j.
Proof.
  intros Hw. pose proof (all_faithful T pretty step j Hw 0%nat) as H. destruct (retext j) as [j'|e|u|]; [|rewrite H; reflexivity|destruct H|destruct H].
  destruct H as (t & -> & Hn & Hr). cbn [rbind]. unfold json_parse.
  destruct (Hr (2 * length t + 2)%nat [] ltac:(lia) I) as (_ & _ & Hp). rewrite app_nil_r in Hp.
  assert (Hb : skip_bom t = t).
  { destruct t as [|c t]; [congruence|]. apply skip_bom_start. intros E. pose proof (scan_bom T c t E) as Hs. rewrite Hs in Hp. 
    rewrite Nat.add_comm in Hp. cbn [Nat.add parse_value] in Hp. discriminate. }
  rewrite Hb. destruct (scan T t) as [tok s]. cbn [fst snd] in Hp. rewrite Hp. reflexivity.
Qed.
