(** Property theorems C13 (files) and C101: RAMDataHandle on files and on what discriminators save. *)
From Verif Require Import Prelude Bytes Base64 Utils BinInput Ram Json Fs RamData Disc SpecBin SpecDisc SpecSaved.
From Verif Require Import DataFacts CtorFacts DiscFacts HandleFile PropsDisc PropsData PropsJson.
From Verif Require Import SpecUtf8 Utf8Proofs.

(** C13: the text may also come from a file: RAMDataHandle("x.wdpkg") = h when the file has h.data(). *)
Theorem C13_handle_file : forall iter f h n name,
  (forall m, iter m ≡ₚ map_to_list m) ->
  (forall i, h !! i <> None <-> 0 <= i < Z.of_nat n) ->
  (forall i m, h !! i = Some m -> m <> ∅ /\
     forall a v, m !! a = Some v -> 0 <= a < W64 /\ INT_MIN <= v <= INT_MAX) ->
  (n > 0)%nat -> Z.of_nat n <= INT_MAX ->
  exists text, (forall fuel, (n <= fuel)%nat -> handle_data fuel iter h = Ok (text, h)) /\
    (len (name ++ lit ".wdpkg") < W64 -> fs_read f (name ++ lit ".wdpkg") = Some text -> handle_of_text f (name ++ lit ".wdpkg") = Ok h).
Proof. exact (fun iter f h n name Hi H1 H2 => handle_roundtrip_file iter f h n name Hi (conj H1 H2)). Qed.
Print Assumptions C13_handle_file.

(** C101: a handle opened on the data of a saved discriminator holds exactly the contents of its
    RAMs, under the numbers 0, 1, ...; get(r, a) reads content a of RAM r. *)
Definition shows (hd : handle) (d : disc) : Prop :=
  forall i, hd !! i = if 0 <=? i then r_positions <$> (d_rams d !! Z.to_nat i) else None.
Theorem C101_handle_of_saved : forall iter rnd f path d0 h d,
  good_iter iter -> constructed d0 -> Forall (Forall is_int) (disc_mapping d0) ->
  all_valid d0 h -> len h <= INT_MAX -> run d0 h = (Ok tt, d) -> (exists x, Train x ∈ h) -> saved_size d <= INT_MAX + 1 ->
  exists j text, disc_json iter rnd f d false path = (Ok j, f) /\ jfield j (lit "data") = Ok (JStr text) /\
    forall f', exists hd, handle_of_text f' text = Ok hd /\ shows hd d.
Proof.
  intros iter rnd f path d0 h d H1 H2 H3 H4 H5 H6 H7 H8. destruct (handle_of_saved iter rnd f path d0 h d H1 H2 H3 H4 H5 H6 H7 H8) as (j & text & E1 & E2 & E3).
  exists j, text. split; [exact E1|]. split; [exact E2|]. intros f'. destruct (E3 f') as (hd & E & Hr). exists hd. split; [exact E|].
  intros i. rewrite Hr, list_lookup_fmap. reflexivity.
Qed.
Print Assumptions C101_handle_of_saved.
Theorem C101_handle_of_saved_file : forall iter rnd f path d0 h d,
  good_iter iter -> constructed d0 -> Forall (Forall is_int) (disc_mapping d0) ->
  all_valid d0 h -> len h <= INT_MAX -> run d0 h = (Ok tt, d) -> (exists x, Train x ∈ h) -> saved_size d <= INT_MAX + 1 ->
  let name := path ++ rnd ++ lit ".wdpkg" in
  is_utf8 name -> len name < W64 -> fs_writable f name = true -> fs_read f name = None ->
  exists j f' hd, disc_json iter rnd f d true path = (Ok j, f') /\ jfield j (lit "data") = Ok (JStr name) /\
    handle_of_text f' name = Ok hd /\ shows hd d.
Proof. cbv zeta. setoid_rewrite <- utf8_ok_iff.
  intros iter rnd f path d0 h d H1 H2 H3 H4 H5 H6 H7 H8 N1 N2 N3 N4.
  destruct (handle_of_saved_file iter rnd f path d0 h d H1 H2 H3 H4 H5 H6 H7 H8 N1 N2 N3 N4) as (j & f' & hd & E1 & E2 & E3 & Hr).
  exists j, f', hd. repeat split; try assumption. intros i. rewrite Hr, list_lookup_fmap. reflexivity.
Qed.
Print Assumptions C101_handle_of_saved_file.
Theorem C101_handle_reads : forall hd d i r a v, shows hd d -> d_rams d !! i = Some r -> is_int a -> 0 <= a ->
  r_positions r !! a = Some v -> handle_get hd (Z.of_nat i) a = (v, hd).
Proof.
  intros hd d i r a v Hs Hr Ha Ha0 Hv. assert (E : hd !! Z.of_nat i = Some (r_positions r)).
  { rewrite Hs. destruct (Z.leb_spec 0 (Z.of_nat i)); [|lia]. rewrite Nat2Z.id, Hr. reflexivity. }
  apply (C16_handle_get_partial hd (Z.of_nat i) a (r_positions r) v E).
  rewrite (BytesProofs.u64_id a); [exact Hv|unfold W64, is_int, INT_MAX in *; lia].
Qed.
Print Assumptions C101_handle_reads.
Example C101_witness : exists j text, disc_json it0 (lit "AbCdEfGh12") disk told false (lit "dir/") = (Ok j, disk) /\
  jfield j (lit "data") = Ok (JStr text) /\ 32 <= len text /\
  forall f', exists hd, handle_of_text f' text = Ok hd /\ shows hd told.
Proof.
  destruct (C101_handle_of_saved it0 (lit "AbCdEfGh12") disk (lit "dir/") demo story told) as (j & text & E1 & E2 & E3).
  - apply it0_good.
  - apply demo_constructed.
  - apply demo_ints.
  - apply demo_history.
  - vm_compute. congruence.
  - apply demo_history.
  - exists img1. left.
  - vm_compute. congruence.
  - exists j, text. split; [exact E1|]. split; [exact E2|]. split; [|exact E3].
    assert (Ej : j = match fst (disc_json it0 (lit "AbCdEfGh12") disk told false (lit "dir/")) with Ok j => j | _ => JNull end) by (rewrite E1; reflexivity).
    subst j. assert (Et : Ok (JStr text) = jfield (match fst (disc_json it0 (lit "AbCdEfGh12") disk told false (lit "dir/")) with Ok j => j | _ => JNull end) (lit "data")) by (symmetry; exact E2).
    vm_compute in Et. injection Et as ->. vm_compute. congruence.
Qed.
