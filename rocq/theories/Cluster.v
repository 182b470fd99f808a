(** Model of class Cluster, src/models/cluswisard/cluster.cc. *)
From stdpp Require Import pretty.
From Verif Require Import Prelude Bytes Utils BinInput Float32 Ram Json Fs RamData Disc.

(** Parameters, cluster.cc:123-130 (addressSize, entrySize, threshold are unsigned int). *)
Record cparams := CParams {
  p_addressSize : Z;
  p_entrySize : Z;
  p_minScore : f32;
  p_threshold : Z;
  p_limit : Z;
  p_complete : bool;
  p_ignoreZero : bool;
  p_base : Z }.

(** A Cluster. [c_params = None]: built with Cluster(){} (cluster.cc:4), members indeterminate.
    The map index -> Discriminator* (cluster.cc:122) always has the keys 0..size-1
    (insertions are at size(): cluster.cc:47, 139, 168-169) and is a list here; [None] is a
    null pointer. Copying a Cluster copies pointers; the package only copies clusters it then
    drops (cluswisard.cc:67, 74, 127, 288), and ~Cluster deletes nothing, so no sharing is
    observable. *)
Record cluster := Cluster { c_params : option cparams; c_discs : list (option disc) }.
Definition cluster_default : cluster := Cluster None [].
Definition with_discs (c : cluster) (ds : list (option disc)) : cluster := Cluster (c_params c) ds.

(** Cluster(entrySize, addressSize, ...), cluster.cc:5-10. *)
Definition cluster_new (entrySize addressSize : Z) (minScore : f32) (threshold limit : Z)
    (complete ignoreZero : bool) (base : Z) : cluster :=
  Cluster (Some (CParams (u32 addressSize) (u32 entrySize) minScore (u32 threshold) limit
                         complete ignoreZero base)) [].

(** getScore, cluster.cc:51-62: [sum] is a float; max*votes.size() is a size_t. *)
Definition score_sum (votes : list Z) : f32 := foldl (fun s v => f32_add s (f32_of_Z v)) f32_zero votes.
Definition score_max (votes : list Z) : Z := foldl (fun m v => if m <? v then v else m) 0 votes.
Definition getScore (votes : list Z) : f32 :=
  if score_max votes =? 0 then f32_zero
  else f32_div (score_sum votes) (f32_of_Z (u64 (score_max votes * len votes))).

(** makeDiscriminator at index size(), cluster.cc:132-134. As in Wisard.v, [lhs_first] is the
    unspecified order of evaluation: the (null) map entry exists before the constructor runs
    and survives if it throws. *)
Definition cluster_make (lhs_first : bool) (dr : draw) (c : cluster) : eff cluster unit :=
  match c_params c with
  | None => (UB UBUninit, c)
  | Some p =>
      match setRAMShuffle dr (s32 (p_entrySize p)) (s32 (p_addressSize p)) (p_ignoreZero p) (p_complete p) (p_base p) with
      | Ok d => (Ok tt, with_discs c (c_discs c ++ [Some d]))
      | Throw e => (Throw e, if lhs_first then with_discs c (c_discs c ++ [None]) else c)
      | UB u => (UB u, c)
      | Hang => (Hang, c)
      end
  end.

(** discriminators[i]->train(image). *)
Definition cluster_train_at (c : cluster) (i : nat) (im : image) : eff cluster unit :=
  match c_discs c !! i with
  | Some (Some d) => let '(o, d') := disc_train d im in (o, with_discs c (<[i := Some d']> (c_discs c)))
  | _ => (UB UBNull, c)
  end.

(** limit, cluster.cc:151, 158-159. *)
Definition train_limit (p : cparams) (d : disc) : f32 :=
  let limit := f32_add (p_minScore p) (f32_div (f32_of_Z (d_count d)) (f32_of_Z (p_threshold p))) in
  if f32_ltb f32_one limit then f32_one else limit.

(** The loop of cluster.cc:148-165: [best], [bi] are bestValue and the index of
    bestDiscriminator. *)
Fixpoint cluster_scan (p : cparams) (im : image) (ds : list (option disc)) (i : nat)
    (best : f32) (bi : option nat) (trained : bool) : eff (list (option disc)) (option nat * bool) :=
  match ds with
  | [] => (Ok (bi, trained), [])
  | None :: _ => (UB UBNull, ds)
  | Some d :: ds' =>
      match disc_classify d im with
      | Ok votes =>
          let score := getScore votes in
          let best' := if f32_leb best score then score else best in
          let bi' := if f32_leb best score then Some i else bi in
          if f32_leb (train_limit p d) score then
            let '(o, d') := disc_train d im in
            match o with
            | Ok _ => let '(r, rest) := cluster_scan p im ds' (S i) best' bi' true in (r, Some d' :: rest)
            | Throw e => (Throw e, Some d' :: ds')
            | UB u => (UB u, Some d' :: ds')
            | Hang => (Hang, Some d' :: ds')
            end
          else let '(r, rest) := cluster_scan p im ds' (S i) best' bi' trained in (r, Some d :: rest)
      | Throw e => (Throw e, ds)
      | UB u => (UB u, ds)
      | Hang => (Hang, ds)
      end
  end.

(** train, cluster.cc:136-177. [dr]: the random choices if a discriminator is created. *)
Definition cluster_train (lhs_first : bool) (dr : draw) (c : cluster) (im : image) : eff cluster unit :=
  match c_discs c with
  | [] => ebind (cluster_make lhs_first dr c) (fun _ c => cluster_train_at c 0 im)
  | _ :: _ =>
      match c_params c with
      | None => (UB UBUninit, c)
      | Some p =>
          let '(r, ds') := cluster_scan p im (c_discs c) 0 f32_zero None false in
          let c' := with_discs c ds' in
          match r with
          | Ok (bi, trained) =>
              if trained then (Ok tt, c')
              else if s32 (len ds') <? p_limit p
                   then ebind (cluster_make lhs_first dr c') (fun _ c => cluster_train_at c (length ds') im)
              else match bi with Some i => cluster_train_at c' i im | None => (Ok tt, c') end
          | Throw e => (Throw e, c')
          | UB u => (UB u, c')
          | Hang => (Hang, c')
          end
      end
  end.

(** Dereferencing the pointers of the map in order. *)
Definition on_discs {A} (f : disc -> res A) (c : cluster) : res (list A) :=
  rmapM (fun od => match od with Some d => f d | None => UB UBNull end) (c_discs c).
(** classify, cluster.cc:179-186. *)
Definition cluster_classify (c : cluster) (im : image) : res (list (list Z)) :=
  on_discs (fun d => disc_classify d im) c.
(** getMentalImages, cluster.cc:84-90. *)
Definition cluster_mental (iter : iteration) (c : cluster) : res (list (list Z)) :=
  on_discs (disc_mental iter) c.

(** std::to_string of a non-negative integer. *)
Definition to_string (n : nat) : str := list_ascii_of_string (pretty (N.of_nat n)).

(** getJson, cluster.cc:92-103: an array of discriminators, null if there is none.
    [rnd i] is the random part of the i-th file name. *)
Fixpoint cluster_jsons (iter : iteration) (rnd : nat -> str) (huge : bool) (path : str)
    (ds : list (option disc)) (i : nat) (acc : list json) (f : fs) : res (list json) * fs :=
  match ds with
  | [] => (Ok acc, f)
  | None :: _ => (UB UBNull, f)
  | Some d :: ds' =>
      let '(r, f') := disc_getJSON iter (rnd i) f d huge (path ++ to_string i ++ lit "__") in
      match r with
      | Ok j => cluster_jsons iter rnd huge path ds' (S i) (acc ++ [j]) f'
      | Throw e => (Throw e, f')
      | UB u => (UB u, f')
      | Hang => (Hang, f')
      end
  end.
Definition cluster_getJson (iter : iteration) (rnd : nat -> str) (f : fs) (c : cluster) (huge : bool) (path : str)
  : res json * fs :=
  let '(r, f') := cluster_jsons iter rnd huge path (c_discs c) 0 [] f in
  (let* js := r in
   match c_params c with
   | None => UB UBUninit
   | Some p => Ok (jobject [ (lit "entrySize", JInt (p_entrySize p));
                             (lit "discriminators", match js with [] => JNull | _ => JArr js end) ])
   end, f').

(** Cluster(nl::json), cluster.cc:11-49. *)
Fixpoint load_discs (f : fs) (dConfig : json) (l : list json) : res (list (option disc)) :=
  match l with
  | [] => Ok []
  | d :: l' =>
      let* d' := disc_of_json f (merge_patch d dConfig) in
      let* ds := load_discs f dConfig l' in Ok (Some d' :: ds)
  end.
Definition cluster_of_json (f : fs) (o : json) : res cluster :=
  let* addressSize := jopt jget_int 2 o (lit "addressSize") in
  let* entrySize := jopt jget_int 2 o (lit "entrySize") in
  let* minScore := jopt jget_float (f32_of_Z 2) o (lit "minScore") in
  let* limit := jopt jget_int 2 o (lit "discriminatorsLimit") in
  let* threshold := jopt jget_uint 2 o (lit "threshold") in
  let* ignoreZero := jopt jget_bool false o (lit "ignoreZero") in
  let* complete := jopt jget_bool true o (lit "completeAddressing") in
  let* base := jopt jget_int 2 o (lit "base") in
  let dConfig := jobject [ (lit "ignoreZero", JBool ignoreZero); (lit "base", JInt base) ] in
  let* dc := jfield o (lit "discriminators") in
  let* ds := load_discs f dConfig (jvalues dc) in
  Ok (Cluster (Some (CParams (u32 addressSize) (u32 entrySize) minScore threshold limit complete ignoreZero base)) ds).
