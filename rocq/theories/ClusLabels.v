(** Lemmas for C158. *)
From Verif Require Import Prelude Bytes Utils Float32 BinInput Bleaching Ram Disc DataSet Wisard Cluster ClusWisard SpecDisc SpecBleach SpecWisard SpecCluster SpecClus SpecClusRename.
From Verif Require Import BytesProofs BleachProofs DiscCtorProofs WisardProofs WisardFacts ClusterProofs ClusProofs ClusIso ClusOne Limit.

(** ** Renaming "label::number" *)
Fixpoint split_colon (r : str) : option (str * str) :=
  match r with
  | [] => None
  | c :: r' => if decide (c = ":"%char) then Some ([], r') else match split_colon r' with Some (a, b) => Some (c :: a, b) | None => None end
  end.
Lemma split_colon_spec r : forall t q, split_colon r = Some (t, q) <-> r = t ++ ":"%char :: q /\ no_colon t.
Proof.
  unfold no_colon. induction r as [|c r IH]; intros t q; cbn [split_colon].
  - split; [discriminate|]. intros [H _]. destruct t; discriminate.
  - destruct (decide (c = ":"%char)) as [->|Hc].
    + split.
      * intros [= <- <-]. split; [reflexivity|]. intros H. inversion H.
      * intros [H Ht]. destruct t as [|d t]; cbn in H; [congruence|]. injection H as <- _. exfalso. apply Ht. left.
    + destruct (split_colon r) as [[a b]|] eqn:E.
      * destruct (IH a b) as [IH1 _]. destruct (IH1 eq_refl) as [-> Ha]. split.
        -- intros [= <- <-]. split; [reflexivity|]. intros H. apply elem_of_cons in H as [H|H]; congruence || contradiction.
        -- intros [H Ht]. destruct t as [|d t]; cbn in H; [congruence|]. injection H as <- H. rewrite not_elem_of_cons in Ht.
           destruct (colon_split b q a t Ha (proj2 Ht) H) as [-> ->]. reflexivity.
      * split; [discriminate|]. intros [H Ht]. destruct t as [|d t]; cbn in H; [congruence|]. injection H as <- H. rewrite not_elem_of_cons in Ht.
        destruct (IH t q) as [_ IH2]. specialize (IH2 (conj H (proj2 Ht))). discriminate.
Qed.
Definition parse (s : str) : option (str * str) :=
  match split_colon (rev s) with
  | Some (t, c :: l) => if decide (c = ":"%char) then Some (rev l, rev t) else None
  | _ => None
  end.
Lemma no_colon_rev t : no_colon t -> no_colon (rev t).
Proof. unfold no_colon. intros H Hin. apply H. apply elem_of_list_In. apply elem_of_list_In in Hin. apply in_rev. exact Hin. Qed.
Lemma parse_spec s l t : parse s = Some (l, t) <-> s = l ++ lit "::" ++ t /\ no_colon t.
Proof.
  unfold parse. split.
  - destruct (split_colon (rev s)) as [[t' [|c l']]|] eqn:E; try discriminate. destruct (decide _) as [->|]; [|discriminate]. intros [= <- <-].
    apply split_colon_spec in E as [E Ht]. split; [|apply no_colon_rev, Ht]. apply (f_equal (@rev ascii)) in E. rewrite rev_involutive in E. rewrite E, rev_app_distr. cbn [rev]. rewrite <- !app_assoc. reflexivity.
  - intros [-> Ht]. assert (E : split_colon (rev (l ++ lit "::" ++ t)) = Some (rev t, ":"%char :: rev l)).
    { apply split_colon_spec. split; [|apply no_colon_rev, Ht]. rewrite !rev_app_distr. cbn [lit String.list_ascii_of_string rev app]. rewrite <- !app_assoc. reflexivity. }
    rewrite E. destruct (decide _); [|congruence]. rewrite !rev_involutive. reflexivity.
Qed.

Lemma all_total {A B} (f : A -> res B) l : Forall (fun x => exists y, f x = Ok y) l -> exists ys, rmapM f l = Ok ys.
Proof. induction 1 as [|x l (y & Hy) _ (ys & IH)]; cbn [rmapM]; [eauto|]. rewrite Hy. cbn [rbind]. rewrite IH. cbn [rbind]. eauto. Qed.

Section rename.
Context (f : str -> str) {Hf : Inj (=) (=) f}.

Definition F (s : str) : str := match parse s with Some (l, t) => f l ++ lit "::" ++ t | None => s end.
Lemma parse_F s : parse (F s) = (fun p => (f p.1, p.2)) <$> parse s.
Proof.
  unfold F. destruct (parse s) as [[l t]|] eqn:E; [|exact E]. apply parse_spec in E as [_ Ht]. apply parse_spec. auto.
Qed.
Global Instance F_inj : Inj (=) (=) F.
Proof using Hf.
  intros a b E. pose proof (f_equal parse E) as Ep. rewrite !parse_F in Ep. unfold F in E.
  destruct (parse a) as [[l t]|] eqn:Ea, (parse b) as [[l' t']|] eqn:Eb; cbn in Ep; try discriminate; [|exact E].
  injection Ep as E1 ->. apply Hf in E1 as ->. apply parse_spec in Ea as [-> _], Eb as [-> _]. reflexivity.
Qed.
Lemma F_key l j : F (cluster_key l j) = cluster_key (f l) j.
Proof.
  unfold F. assert (E : parse (cluster_key l j) = Some (l, to_string j)) by (apply parse_spec; split; [reflexivity|apply to_string_no_colon]). rewrite E. reflexivity.
Qed.

(** ** Training with given labels *)
Notation kren := (krename f).
Definition kl {A} (r : eff cluswisard A) : eff cluswisard A := (fst r, kren (snd r)).
Lemma kget {A} (m : gmap str A) (l : str) : (kmap f m : gmap str A) !! f l = m !! l.
Proof using Hf. apply (lookup_kmap f). Qed.
Lemma kins {A} (m : gmap str A) (l : str) (a : A) : <[f l := a]> (kmap f m : gmap str A) = kmap f (<[l := a]> m).
Proof using Hf. symmetry. apply (kmap_insert f). Qed.
Lemma at_ren h k l : at_cluster h (kren k) (f l) = kl (at_cluster h k l).
Proof using Hf. unfold at_cluster, kl, krename. cbn [k_clusters with_clusters]. rewrite kget. destruct (h _) as [o c']. cbn [fst snd k_clusters with_clusters]. rewrite kins. reflexivity. Qed.
Lemma train1_ren lhs dr k x l : clus_train1 lhs dr (kren k) x (f l) = kl (clus_train1 lhs dr k x l).
Proof using Hf.
  unfold clus_train1. assert (E : k_clusters (kren k) !! f l = k_clusters k !! l) by apply kget. rewrite E.
  destruct (k_clusters k !! l); [apply at_ren|]. rewrite <- at_ren. f_equal. unfold makeClusters, krename. cbn [k_clusters with_clusters]. rewrite kins. reflexivity.
Qed.
Lemma bind_ren {A B} (m : eff cluswisard A) (h h' : A -> cluswisard -> eff cluswisard B) : (forall a k, h' a (kren k) = kl (h a k)) -> ebind (kl m) h' = kl (ebind m h).
Proof. intros H. destruct m as [[u| | |] k]; cbn; [apply H|reflexivity..]. Qed.
Lemma loop_ren lhs env : forall xs ls i k, clus_train_loop lhs env i (kren k) xs (f <$> ls) = kl (clus_train_loop lhs env i k xs ls).
Proof using Hf.
  induction xs as [|x xs IH]; intros [|l ls] i k; try reflexivity. rewrite fmap_cons. cbn [clus_train_loop]. rewrite train1_ren. apply bind_ren. intros _ k'. apply IH.
Qed.
Lemma len_fmap {A B} (h : A -> B) (l : list A) : len (h <$> l) = len l.
Proof. unfold len. rewrite fmap_length. reflexivity. Qed.
Lemma lift_ren {A} k (r : res A) : elift (kren k) r = kl (elift k r).
Proof. reflexivity. Qed.
Lemma train_ren lhs env k xs ls : clus_train lhs env (kren k) xs (f <$> ls) = kl (clus_train lhs env k xs ls).
Proof using Hf.
  unfold clus_train. destruct xs as [|x xs]; [reflexivity|]. rewrite len_fmap. change (clus_first_checks (kren k) x) with (clus_first_checks k x). rewrite lift_ren.
  apply bind_ren. intros _ k'. apply loop_ren.
Qed.
Lemma size_ren {A} (m : gmap str A) : size (kmap f m : gmap str A) = size m.
Proof using Hf. pose proof (Permutation_length (items_renamed f m)) as H. rewrite fmap_length in H. exact H. Qed.
Lemma unsup_ren lhs env k xs : trainUnsupervised lhs env (kren k) xs = kl (trainUnsupervised lhs env k xs).
Proof using Hf.
  unfold trainUnsupervised. change (k_clusters (kren k)) with (kmap f (k_clusters k) : gmap str cluster). rewrite size_ren.
  assert (G : forall h k, at_unsupervised h (kren k) = kl (at_unsupervised h k)).
  { intros h k'. unfold at_unsupervised, kl. change (k_unsupervised (kren k')) with (k_unsupervised k'). destruct (h _) as [o c]. reflexivity. }
  destruct (Nat.eqb _ 0); [|apply G]. destruct xs as [|x xs]; [reflexivity|].
  change (with_unsupervised (kren k) (new_cluster (kren k) (s32 (im_size x)) 2)) with (kren (with_unsupervised k (new_cluster k (s32 (im_size x)) 2))). apply G.
Qed.
Lemma call_ren lhs k c : decided c -> kcall_run lhs (kren k) (krename_call f c) = kl (kcall_run lhs k c).
Proof using Hf. destruct c as [env xs ls|env env2 xs ls|env xs]; cbn [decided krename_call kcall_run]; intros H; [apply train_ren|contradiction|apply unsup_ren]. Qed.
Lemma run_ren lhs : forall cs k, Forall decided cs -> krun lhs (kren k) (krename_call f <$> cs) = kl (krun lhs k cs).
Proof using Hf.
  induction cs as [|c cs IH]; intros k H; [reflexivity|]. apply Forall_cons in H as [Hc H]. rewrite fmap_cons. unfold krun in *. cbn [efor]. rewrite call_ren by exact Hc.
  apply bind_ren. intros _ k'. apply IH, H.
Qed.

(** ** Votes and answers *)
Lemma votes_ren (m : gmap str cluster) x v : clus_votes m x = Ok v -> clus_votes (kmap f m) x = Ok (kmap F v).
Proof using Hf.
  intros H. destruct (clus_votes_spec _ _ _ H) as [Hc Hs].
  assert (exists v', clus_votes (kmap f m) x = Ok v') as (v' & H').
  { unfold clus_votes. destruct (all_total (fun kc : str * cluster => let* vs := cluster_classify kc.2 x in Ok (imap (fun j v => (cluster_key kc.1 j, v)) vs)) (sorted_items (kmap f m))) as (ys & E).
    - apply Forall_forall. intros [l c] Hin. apply sorted_items_elem in Hin. apply (lookup_kmap_Some f) in Hin as (l0 & -> & Hl). destruct (Hc _ _ Hl) as [vs Hvs].
      cbn [fst snd]. rewrite Hvs. cbn [rbind]. eauto.
    - rewrite E. cbn [rbind]. eauto. }
  rewrite H'. f_equal. destruct (clus_votes_spec _ _ _ H') as [_ Hs']. apply map_eq. intros key. apply option_eq. intros w. rewrite Hs', (lookup_kmap_Some F). split.
  - intros (l & c & vs & j & Hl & Hcl & Hj & ->). apply (lookup_kmap_Some f) in Hl as (l0 & -> & Hl). exists (cluster_key l0 j). rewrite F_key. split; [reflexivity|]. apply Hs. eauto 10.
  - intros (key0 & -> & Hk). apply Hs in Hk as (l & c & vs & j & Hl & Hcl & Hj & ->). exists (f l), c, vs, j. rewrite F_key, kget. auto.
Qed.
Lemma to_mental iter k M : clus_mental iter k = Ok M -> clus_mental iter (kren k) = Ok (kmap f M).
Proof using Hf.
  intros H. unfold clus_mental in *. pose proof (keyed_inv (cluster_mental iter) _ _ H) as Hk. apply (keyed_ok (cluster_mental iter)). intros l.
  change (k_clusters (kren k)) with (kmap f (k_clusters k) : gmap str cluster). destruct (kmap f (k_clusters k) !! l) as [c|] eqn:E.
  - apply (lookup_kmap_Some f) in E as (l0 & -> & El). specialize (Hk l0). rewrite El in Hk. rewrite kget. exact Hk.
  - apply (lookup_kmap_None f). intros l0 ->. rewrite kget in E. specialize (Hk l0). rewrite E in Hk. exact Hk.
Qed.
Lemma str_lt_prefix p a b : str_lt (p ++ a) (p ++ b) <-> str_lt a b.
Proof. unfold str_lt. induction p as [|c p IH]; [reflexivity|]. cbn [app str_leb]. rewrite Z.ltb_irrefl, Z.eqb_refl. exact IH. Qed.
Lemma key_prefix l i j : str_lt (cluster_key l i) (cluster_key l j) <-> str_lt (to_string i) (to_string j).
Proof. unfold cluster_key. rewrite !app_assoc, str_lt_prefix. reflexivity. Qed.

Context (D : str -> Prop) (HD : same_order D f).
Definition alive (k : cluswisard) : Prop := forall l c, k_clusters k !! l = Some c -> D l /\ c_discs c <> [].
Lemma mono_votes k x v : alive k -> clus_votes (k_clusters k) x = Ok v -> mono F v.
Proof using HD.
  intros Ha H a b [va Hva] [vb Hvb] Hlt. destruct (clus_votes_spec _ _ _ H) as [_ Hs]. apply Hs in Hva as (l & c & ? & i & Hl & _ & _ & ->). apply Hs in Hvb as (l' & c' & ? & j & Hl' & _ & _ & ->).
  rewrite !F_key. destruct (decide (l = l')) as [->|Hn].
  - apply key_prefix. apply key_prefix in Hlt. exact Hlt.
  - apply HD; [apply (Ha _ _ Hl)|apply (Ha _ _ Hl')|exact Hn|exact Hlt].
Qed.
Lemma candidates_ren k x sb cand : alive k -> clus_candidates k x sb = Ok cand -> clus_candidates (kren k) x sb = Ok (renamed F cand).
Proof using Hf HD.
  intros Ha H. unfold clus_candidates in *. change (k_clusters (kren k)) with (kmap f (k_clusters k) : gmap str cluster).
  destruct (clus_votes (k_clusters k) x) as [v| | |] eqn:E; try discriminate. rewrite (votes_ren _ _ _ E). cbn [rbind] in *.
  pose proof (bleach_renamed F v (k_bleachingActivated k) sb (k_confidence k) (mono_votes k x v Ha E)) as E2. unfold renamed in E2. cbn [k_bleachingActivated k_confidence krename with_clusters]. rewrite E2, H. reflexivity.
Qed.
Lemma scan_F : forall l big k, biggest_scan ((fun x : str * Z => (F x.1, x.2)) <$> l) big (F k) = F (biggest_scan l big k).
Proof. induction l as [|[k v] l IH]; intros big k0; [reflexivity|]. cbn. destruct (big <=? v); apply IH. Qed.
Lemma answer_ren k x sb cand : alive k -> clus_candidates k x sb = Ok cand -> k_clusters k <> ∅ ->
  D (before_colons (getBiggestCandidate cand)) /\ is_Some (k_clusters k !! before_colons (getBiggestCandidate cand)) /\
  before_colons (getBiggestCandidate (renamed F cand)) = f (before_colons (getBiggestCandidate cand)).
Proof using Hf HD.
  intros Ha H Hne. unfold clus_candidates in H. destruct (clus_votes (k_clusters k) x) as [v| | |] eqn:Ev; try discriminate. cbn [rbind] in H.
  destruct (clus_votes_spec _ _ _ Ev) as [Hc Hs].
  assert (Hv : v <> ∅).
  { intros ->. apply map_choose in Hne as (l & c & Hl). destruct (Hc _ _ Hl) as [vs Hvs]. destruct (Ha _ _ Hl) as [_ Hd]. destruct vs as [|w vs].
    - unfold cluster_classify, on_discs in Hvs. destruct (c_discs c) as [|od ds]; [congruence|]. cbn [rmapM] in Hvs. destruct od as [d|]; [|discriminate]. destruct (disc_classify d x); try discriminate. cbn [rbind] in Hvs. destruct (rmapM _ ds); discriminate.
    - specialize (Hs (cluster_key l O) w). rewrite lookup_empty in Hs. destruct Hs as [_ Hs]. discriminate Hs. exists l, c, (w :: vs), O. auto. }
  assert (HbF : getBiggestCandidate (renamed F cand) = F (getBiggestCandidate cand)).
  { destruct (candidates_keys _ _ _ _ _ H) as [b ->].
    assert (Hm : mono F (tallies b v)) by (pose proof (mono_votes k x v Ha Ev) as Hm; intros p q; unfold tallies; rewrite !lookup_fmap, !fmap_is_Some; apply Hm).
    unfold getBiggestCandidate. rewrite (sorted_renamed F) by exact Hm.
    destruct (sorted_items (tallies b v)) as [|[k0 v0] r] eqn:Es.
    - exfalso. apply Hv. apply map_empty. intros q. destruct (v !! q) as [z|] eqn:Eq; [|reflexivity]. exfalso.
      assert (is_Some (tallies b v !! q)) as [t Ht] by (unfold tallies; rewrite lookup_fmap, Eq; eauto). apply sorted_items_elem in Ht. rewrite Es in Ht. inversion Ht.
    - rewrite fmap_cons. cbn [biggest_scan fst snd]. assert (H0 : 0 <= v0) by (apply (tallies_nonneg b v k0), sorted_items_elem; rewrite Es; left).
      apply Z.leb_le in H0. rewrite H0. apply scan_F. }
  rewrite HbF. destruct (biggest_key _ _ _ _ _ H Hv) as [w Hw]. apply Hs in Hw as (l & c & vs & j & Hl & _ & _ & Hk). rewrite Hk, F_key. destruct (Ha _ _ Hl) as [HDl _]. destruct HD as [Hp _]. destruct (Hp _ HDl) as [Hp1 Hp2].
  unfold cluster_key. rewrite !before_colons_key by assumption. eauto.
Qed.

(** ** Histories with unlabelled images *)
Definition sim {A} (m m' : cluswisard -> eff cluswisard A) : Prop := forall k k1 a, alive k -> m k = (Ok a, k1) -> alive k1 /\ m' (kren k) = (Ok a, kren k1).
Lemma sim_bind {A B} (m m' : cluswisard -> eff cluswisard A) (h h' : A -> cluswisard -> eff cluswisard B) :
  sim m m' -> (forall a, sim (h a) (h' a)) -> sim (fun k => ebind (m k) h) (fun k => ebind (m' k) h').
Proof. intros H1 H2 k k1 b Ha E. apply ebind_inv in E as (a & k2 & E1 & E2). destruct (H1 _ _ _ Ha E1) as [Ha2 E1']. destruct (H2 _ _ _ _ Ha2 E2) as [Ha1 E2']. split; [exact Ha1|]. rewrite E1'. exact E2'. Qed.
Lemma sim_lift {A} (h h' : cluswisard -> res A) : (forall k a, alive k -> h k = Ok a -> h' (kren k) = Ok a) -> sim (fun k => elift k (h k)) (fun k => elift k (h' k)).
Proof. intros H k k1 a Ha E. unfold elift in *. injection E as E <-. split; [exact Ha|]. rewrite (H _ _ Ha E). reflexivity. Qed.
Lemma sim_for {X} (h h' : cluswisard -> X -> eff cluswisard unit) l : (forall x, sim (fun k => h k x) (fun k => h' k x)) -> sim (efor h l) (efor h' l).
Proof. intros H. induction l as [|x l IH]; intros k k1 a Ha E; [cbn in *; injection E as <- <-; auto|]. cbn [efor] in *. exact (sim_bind _ _ _ _ (H x) (fun _ => IH) k k1 a Ha E). Qed.
Lemma sim_train1 lhs dr x l : D l -> sim (fun k => clus_train1 lhs dr k x l) (fun k => clus_train1 lhs dr k x (f l)).
Proof using Hf.
  intros HDl k k1 [] Ha E. split; [|rewrite train1_ren, E; reflexivity].
  assert (Hk : kinv k (fun l => is_Some (k_clusters k !! l))) by (split; [intros ? ? H; destruct (Ha _ _ H); eauto|auto]).
  destruct (train1_inv _ _ _ _ _ _ _ Hk E) as [H1 _]. intros q c Hq. destruct (H1 _ _ Hq) as [[[c' Hc']| ->] Hd]; [destruct (Ha _ _ Hc')|]; auto.
Qed.
Lemma sim_loop lhs env : forall xs ls i, (forall l, l ∈ ls -> D l) -> sim (fun k => clus_train_loop lhs env i k xs ls) (fun k => clus_train_loop lhs env i k xs (f <$> ls)).
Proof using Hf.
  induction xs as [|x xs IH]; intros [|l ls] i Hl; try (intros k k1 a Ha [= <- <-]; split; [exact Ha|reflexivity]); try (intros k k1 a Ha E; discriminate).
  rewrite fmap_cons. cbn [clus_train_loop]. apply sim_bind; [apply sim_train1, Hl; left|]. intros _. apply IH. intros q Hq. apply Hl. right. exact Hq.
Qed.
Lemma sim_train lhs env xs ls : (forall l, l ∈ ls -> D l) -> sim (fun k => clus_train lhs env k xs ls) (fun k => clus_train lhs env k xs (f <$> ls)).
Proof using Hf.
  intros Hl. unfold clus_train. destruct xs as [|x xs]; [intros k k1 a Ha E; discriminate|]. apply sim_bind; [|intros _; apply sim_loop, Hl].
  apply sim_lift. intros k a _. rewrite len_fmap. exact id.
Qed.
Lemma sim_unlabelled lhs dr x : sim (fun k => clus_train_unlabelled lhs dr k x) (fun k => clus_train_unlabelled lhs dr k x).
Proof using Hf HD.
  intros k k1 [] Ha E. assert (Hk : kinv k (fun l => is_Some (k_clusters k !! l))) by (split; [intros ? ? H; destruct (Ha _ _ H); eauto|auto]).
  assert (Hpl : forall l, is_Some (k_clusters k !! l) -> plain_label l) by (intros l [c Hl]; destruct (Ha _ _ Hl) as [HDl _]; apply HD, HDl).
  pose proof (unlabelled_inv _ _ _ _ _ _ Hk Hpl E) as [H1 _]. split.
  { intros q c Hq. destruct (H1 _ _ Hq) as [[c' Hc'] Hd]. destruct (Ha _ _ Hc'). auto. }
  unfold clus_train_unlabelled, elift in *. destruct (clus_candidates k x false) as [cand| | |] eqn:Ec; cbn [ebind] in E; [|discriminate..].
  rewrite (candidates_ren _ _ _ _ Ha Ec). cbn [ebind].
  destruct (decide (k_clusters k = ∅)) as [He|He].
  { exfalso. unfold at_cluster in E. rewrite He, lookup_empty in E. cbn in E. discriminate. }
  destruct (answer_ren _ _ _ _ Ha Ec He) as (_ & _ & ->). rewrite at_ren, E. reflexivity.
Qed.
Lemma sim_semi_loop lhs env (labels : gmap Z str) : (forall i l, labels !! i = Some l -> D l) -> forall xs i ls j,
  sim (semi_loop lhs env labels i ls j xs) (semi_loop lhs env (f <$> labels) i ls j xs).
Proof using Hf.
  intros Hl. induction xs as [|x xs IH]; intros i ls j; [intros k k1 a Ha [= <- <-]; split; [exact Ha|reflexivity]|].
  cbn [semi_loop]. rewrite lookup_fmap. destruct (labels !! s32 (Z.of_nat i)) as [l|] eqn:E; cbn [fmap option_fmap option_map].
  - intros k k1 a. apply (sim_bind (fun k => clus_train1 lhs (env i) k x l) (fun k => clus_train1 lhs (env i) k x (f l))); [apply sim_train1, (Hl _ _ E)|]. intros _. apply IH.
  - destruct (_ <? j); [apply IH|]. destruct (j <? ls); [apply IH|]. intros k k1 a _. discriminate.
Qed.
Lemma sim_semi lhs env env2 xs (labels : gmap Z str) : (forall i l, labels !! i = Some l -> D l) ->
  sim (fun k => clus_train_semi lhs env env2 k xs labels) (fun k => clus_train_semi lhs env env2 k xs (f <$> labels)).
Proof using Hf HD.
  intros Hl. unfold clus_train_semi. destruct xs as [|x xs]; [intros k k1 a _; discriminate|].
  apply sim_bind; [apply sim_lift; intros k a _; rewrite map_size_fmap; exact id|]. intros _. rewrite map_size_fmap. apply sim_bind; [apply sim_semi_loop, Hl|].
  intros ls. destruct (s32 ls =? _); [intros k k1 a _; discriminate|]. unfold semi_unlabelled. apply sim_for. intros i. apply sim_bind; [apply sim_lift; intros k a _; exact id|].
  intros im. apply sim_unlabelled.
Qed.
Definition all_labels (c : kcall) : Prop :=
  match c with KTrain _ _ ls => forall l, l ∈ ls -> D l | KSemi _ _ _ m => forall i l, m !! i = Some l -> D l | KUnsupervised _ _ => True end.
Lemma sim_call lhs c : all_labels c -> sim (fun k => kcall_run lhs k c) (fun k => kcall_run lhs k (krename_call f c)).
Proof using Hf HD.
  destruct c as [env xs ls|env env2 xs m|env xs]; cbn [all_labels krename_call kcall_run]; intros H; [apply sim_train, H|apply sim_semi, H|].
  intros k k1 [] Ha E. split; [|rewrite unsup_ren, E; reflexivity]. assert (Ek : k_clusters k1 = k_clusters k) by (pose proof (ClusIso.unsup_frame lhs env k xs) as [G _]; rewrite E in G; exact G).
  intros l c. rewrite Ek. apply Ha.
Qed.
Lemma sim_run lhs : forall cs, Forall all_labels cs -> sim (fun k => krun lhs k cs) (fun k => krun lhs k (krename_call f <$> cs)).
Proof using Hf HD.
  induction cs as [|c cs IH]; intros H; [intros k k1 a Ha [= <- <-]; split; [exact Ha|reflexivity]|]. apply Forall_cons in H as [Hc H]. rewrite fmap_cons. unfold krun in *. cbn [efor].
  apply sim_bind; [apply sim_call, Hc|]. intros _. apply IH, H.
Qed.
End rename.
