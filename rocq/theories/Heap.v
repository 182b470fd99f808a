(** Class Cluster with its pointers (cluster.cc): Cluster.v keeps the discriminators inside the
    cluster, the code keeps pointers to discriminators made with new. *)
From Verif Require Import Prelude Bytes Utils BinInput Float32 Ram Json Fs RamData Disc Cluster.

(** Discriminators made with new: address -> object; addresses are never used again because nothing
    is ever deleted. *)
Record heap := Heap { hp_cells : gmap nat disc; hp_next : nat }.
(** new Discriminator(...), once the constructor has returned. *)
Definition hp_new (h : heap) (d : disc) : nat * heap := (hp_next h, Heap (<[hp_next h := d]> (hp_cells h)) (S (hp_next h))).
Definition hp_write (h : heap) (a : nat) (d : disc) : heap := Heap (<[a := d]> (hp_cells h)) (hp_next h).
(** p->...: a null pointer; a pointer to nothing (it never happens, C119) is given as UBUninit. *)
Definition hp_read (h : heap) (o : option nat) : res (nat * disc) :=
  match o with
  | None => UB UBNull
  | Some a => match hp_cells h !! a with Some d => Ok (a, d) | None => UB UBUninit end
  end.

(** Members, cluster.cc:122-130. *)
Record pcluster := PCluster { pc_params : option cparams; pc_ptrs : list (option nat) }.
Definition with_ptrs (c : pcluster) (l : list (option nat)) : pcluster := PCluster (pc_params c) l.

(** makeDiscriminator, cluster.cc:132-134. *)
Definition pc_make (lhs_first : bool) (dr : draw) (s : heap * pcluster) : eff (heap * pcluster) unit :=
  let '(h, c) := s in
  match pc_params c with
  | None => (UB UBUninit, s)
  | Some p =>
      match setRAMShuffle dr (s32 (p_entrySize p)) (s32 (p_addressSize p)) (p_ignoreZero p) (p_complete p) (p_base p) with
      | Ok d => let '(a, h') := hp_new h d in (Ok tt, (h', with_ptrs c (pc_ptrs c ++ [Some a])))
      | Throw e => (Throw e, if lhs_first then (h, with_ptrs c (pc_ptrs c ++ [None])) else s)
      | UB u => (UB u, s)
      | Hang => (Hang, s)
      end
  end.

(** p->train(image). *)
Definition hp_train (h : heap) (o : option nat) (im : image) : eff heap unit :=
  match hp_read h o with
  | Ok (a, d) => let '(r, d') := disc_train d im in (r, hp_write h a d')
  | Throw e => (Throw e, h)
  | UB u => (UB u, h)
  | Hang => (Hang, h)
  end.

(** The loop of cluster.cc:148-165; [bp] is bestDiscriminator, a pointer. *)
Fixpoint pc_scan (p : cparams) (im : image) (ptrs : list (option nat)) (best : f32) (bp : option nat) (trained : bool) (h : heap)
  : eff heap (option nat * bool) :=
  match ptrs with
  | [] => (Ok (bp, trained), h)
  | o :: ptrs' =>
      match (let* (_, d) := hp_read h o in let* votes := disc_classify d im in Ok (d, votes)) with
      | Ok (d, votes) =>
          let score := getScore votes in
          let best' := if f32_leb best score then score else best in
          let bp' := if f32_leb best score then o else bp in
          if f32_leb (train_limit p d) score
          then ebind (hp_train h o im) (fun _ h => pc_scan p im ptrs' best' bp' true h)
          else pc_scan p im ptrs' best' bp' trained h
      | Throw e => (Throw e, h)
      | UB u => (UB u, h)
      | Hang => (Hang, h)
      end
  end.

(** train, cluster.cc:136-177. *)
Definition pc_train_last (im : image) (s : heap * pcluster) : eff (heap * pcluster) unit :=
  let '(h, c) := s in
  let '(r, h') := hp_train h (mjoin (last (pc_ptrs c))) im in (r, (h', c)).
Definition pc_train (lhs_first : bool) (dr : draw) (im : image) (s : heap * pcluster) : eff (heap * pcluster) unit :=
  let '(h, c) := s in
  match pc_ptrs c with
  | [] => ebind (pc_make lhs_first dr s) (fun _ s => pc_train_last im s)
  | _ :: _ =>
      match pc_params c with
      | None => (UB UBUninit, s)
      | Some p =>
          let '(r, h') := pc_scan p im (pc_ptrs c) f32_zero None false h in
          match r with
          | Ok (bp, trained) =>
              if trained then (Ok tt, (h', c))
              else if s32 (len (pc_ptrs c)) <? p_limit p
                   then ebind (pc_make lhs_first dr (h', c)) (fun _ s => pc_train_last im s)
              else match bp with
                   | Some _ => let '(r, h'') := hp_train h' bp im in (r, (h'', c))
                   | None => (Ok tt, (h', c))
                   end
          | Throw e => (Throw e, (h', c))
          | UB u => (UB u, (h', c))
          | Hang => (Hang, (h', c))
          end
      end
  end.

(** Loops that only read, cluster.cc:84-90, 179-186. *)
Definition pc_reads {A} (f : disc -> res A) (h : heap) (c : pcluster) : res (list A) :=
  rmapM (fun o => let* (_, d) := hp_read h o in f d) (pc_ptrs c).
Definition pc_classify (h : heap) (c : pcluster) (im : image) : res (list (list Z)) := pc_reads (fun d => disc_classify d im) h c.
Definition pc_mental (iter : iteration) (h : heap) (c : pcluster) : res (list (list Z)) := pc_reads (disc_mental iter) h c.

(** Cluster(nl::json), cluster.cc:42-48: one new Discriminator for each entry, in order. If one of
    them throws, those already made stay allocated. *)
Fixpoint pc_load_discs (f : fs) (dConfig : json) (l : list json) (h : heap) (ptrs : list (option nat)) : eff heap (list (option nat)) :=
  match l with
  | [] => (Ok ptrs, h)
  | d :: l' =>
      match disc_of_json f (merge_patch d dConfig) with
      | Ok d' => let '(a, h') := hp_new h d' in pc_load_discs f dConfig l' h' (ptrs ++ [Some a])
      | Throw e => (Throw e, h)
      | UB u => (UB u, h)
      | Hang => (Hang, h)
      end
  end.
Definition pc_of_json (f : fs) (o : json) (h : heap) : eff heap pcluster :=
  match (let* addressSize := jopt jget_int 2 o (lit "addressSize") in
         let* entrySize := jopt jget_int 2 o (lit "entrySize") in
         let* minScore := jopt jget_float (f32_of_Z 2) o (lit "minScore") in
         let* limit := jopt jget_int 2 o (lit "discriminatorsLimit") in
         let* threshold := jopt jget_uint 2 o (lit "threshold") in
         let* ignoreZero := jopt jget_bool false o (lit "ignoreZero") in
         let* complete := jopt jget_bool true o (lit "completeAddressing") in
         let* base := jopt jget_int 2 o (lit "base") in
         let* dc := jfield o (lit "discriminators") in
         Ok (CParams (u32 addressSize) (u32 entrySize) minScore threshold limit complete ignoreZero base, dc)) with
  | Ok (p, dc) =>
      let dConfig := jobject [ (lit "ignoreZero", JBool (p_ignoreZero p)); (lit "base", JInt (p_base p)) ] in
      let '(r, h') := pc_load_discs f dConfig (jvalues dc) h [] in
      (let* ptrs := r in Ok (PCluster (Some p) ptrs), h')
  | Throw e => (Throw e, h)
  | UB u => (UB u, h)
  | Hang => (Hang, h)
  end.

(** ** Programs: any sequence of uses of the class, over variables that hold clusters *)
Inductive cop :=
| PNew (x : nat) (entrySize addressSize : Z) (minScore : f32) (threshold limit : Z) (complete ignoreZero : bool) (base : Z)
| PDefault (x : nat)
| PLoad (x : nat) (f : fs) (o : json)
| PTrain (x : nat) (lhs_first : bool) (dr : draw) (im : image)
| PClassify (x : nat) (im : image)
| PMental (x : nat) (iter : iteration)
| PSize (x : nat)
| PAssign (x y : nat)   (* y = x, then x is destroyed: assignment from a temporary (cluswisard.cc:67, 74, 127, 288) *)
| PCopy (x y : nat)     (* y = x *)
| PDrop (x : nat)       (* ~Cluster, cluster.cc:117-119 *).
Definition is_train (o : cop) : bool := match o with PTrain _ _ _ _ => true | _ => false end.
Inductive cobs := ONone | OLists (l : list (list Z)) | OSize (n : Z).

(** With pointers. The members of a map of pointers are copied by y = x; ~Cluster only clears the map. *)
Definition pstate : Type := heap * gmap nat pcluster.
Definition p_at {A} (x : nat) (s : pstate) (f : pcluster -> res A * pstate) : res A * pstate :=
  match s.2 !! x with Some c => f c | None => (UB UBUninit, s) end.
Definition pstep (o : cop) (s : pstate) : res cobs * pstate :=
  let '(h, m) := s in
  match o with
  | PNew x es az ms th li co iz ba => (Ok ONone, (h, <[x := PCluster (c_params (cluster_new es az ms th li co iz ba)) []]> m))
  | PDefault x => (Ok ONone, (h, <[x := PCluster None []]> m))
  | PLoad x f o => let '(r, h') := pc_of_json f o h in
                   match r with Ok c => (Ok ONone, (h', <[x := c]> m)) | Throw e => (Throw e, (h', m)) | UB u => (UB u, (h', m)) | Hang => (Hang, (h', m)) end
  | PTrain x lhs dr im => p_at x s (fun c => let '(r, (h', c')) := pc_train lhs dr im (h, c) in (let* _ := r in Ok ONone, (h', <[x := c']> m)))
  | PClassify x im => p_at x s (fun c => (let* l := pc_classify h c im in Ok (OLists l), s))
  | PMental x iter => p_at x s (fun c => (let* l := pc_mental iter h c in Ok (OLists l), s))
  | PSize x => p_at x s (fun c => (Ok (OSize (s32 (len (pc_ptrs c)))), s))
  | PAssign x y => p_at x s (fun c => (Ok ONone, (h, <[y := c]> (delete x m))))
  | PCopy x y => p_at x s (fun c => (Ok ONone, (h, <[y := c]> m)))
  | PDrop x => p_at x s (fun c => (Ok ONone, (h, delete x m)))
  end.

(** With values: the clusters of Cluster.v, where y = x copies the discriminators. *)
Definition v_at {A} (x : nat) (m : gmap nat cluster) (f : cluster -> res A * gmap nat cluster) : res A * gmap nat cluster :=
  match m !! x with Some c => f c | None => (UB UBUninit, m) end.
Definition vstep (o : cop) (m : gmap nat cluster) : res cobs * gmap nat cluster :=
  match o with
  | PNew x es az ms th li co iz ba => (Ok ONone, <[x := cluster_new es az ms th li co iz ba]> m)
  | PDefault x => (Ok ONone, <[x := cluster_default]> m)
  | PLoad x f o => match cluster_of_json f o with Ok c => (Ok ONone, <[x := c]> m) | Throw e => (Throw e, m) | UB u => (UB u, m) | Hang => (Hang, m) end
  | PTrain x lhs dr im => v_at x m (fun c => let '(r, c') := cluster_train lhs dr c im in (let* _ := r in Ok ONone, <[x := c']> m))
  | PClassify x im => v_at x m (fun c => (let* l := cluster_classify c im in Ok (OLists l), m))
  | PMental x iter => v_at x m (fun c => (let* l := cluster_mental iter c in Ok (OLists l), m))
  | PSize x => v_at x m (fun c => (Ok (OSize (s32 (len (c_discs c)))), m))
  | PAssign x y => v_at x m (fun c => (Ok ONone, <[y := c]> (delete x m)))
  | PCopy x y => v_at x m (fun c => (Ok ONone, <[y := c]> m))
  | PDrop x => v_at x m (fun c => (Ok ONone, delete x m))
  end.

(** A program runs on after an exception and stops at undefined behaviour; its trace is the list of
    outcomes. *)
Fixpoint trace {S} (step : cop -> S -> res cobs * S) (l : list cop) (s : S) : list (res cobs) * S :=
  match l with
  | [] => ([], s)
  | o :: l' =>
      let '(r, s') := step o s in
      match r with
      | Ok _ | Throw _ => let '(rs, s'') := trace step l' s' in (r :: rs, s'')
      | UB _ | Hang => ([r], s')
      end
  end.
