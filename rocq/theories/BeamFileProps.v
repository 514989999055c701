(** C114: the beam used is the beam of the file named, however it is stored. *)
From Coq Require Import String Ascii.
From Verif Require Import Base H5IO H5IOSpec H5IOProofs H5IOProps BeamFile BeamFileSpec BeamFileProofs.
Import ListNotations.
Open Scope nat_scope.
Open Scope list_scope.
Open Scope string_scope.

(** C114. From a sav file every run that gets a beam gets the beam of the first baseline for each polarization and frequency,
    the groups of each polarization, frequency and baseline, and the other fields as they are (arrays of objects without
    missing entries). *)
Theorem C114_sav : forall lib d dir name st s nb nf np shape lazy b d', named name st "sav" ->
  d (dir, name) = Some (Sav (Some s)) -> box (S nb) (S nf) (S np) (sv_beam s) -> entries_of shape (sv_beam s) ->
  box (S nb) (S nf) (S np) (sv_id s) ->
  create_psf lib d (dir, name) lazy = Ok (b, d') ->
  exists data ids fields,
    b = InMemory (VDict (("beam_ptr", VArr (S np :: S nf :: shape) (EComplex false data))
                         :: ("id", VArr [S np; S nf; S nb] (EInt ids)) :: fields))
    /\ (forall p f, p <= np -> f <= nf -> piece (S nf) (prod_nat shape) data p f = sav_entry (sv_beam s) 0 f p)
    /\ (forall p f k, p <= np -> f <= nf -> k <= nb -> nth ((p * S nf + f) * S nb + k) ids 0%Z = id_entry (sv_id s) k f p)
    /\ map fst fields = map fst (sv_rest s)
    /\ (forall k v, In (k, v) (sv_rest s) -> full v -> In (k, v) fields).
Proof.
  intros lib d dir name st s nb nf np shape lazy b d' Hn Hd Hb He Hi H. unfold create_psf in H.
  cbn [fst snd] in H. rewrite (suffix_named _ _ _ Hn), Hd in H. cbn [append String.eqb Ascii.eqb Bool.eqb] in H.
  rewrite (beam_array_ok _ nb nf np shape Hb He) in H. cbn [bind] in H.
  destruct (id_array_ok _ nb nf np Hi) as (ids & Ei & Hids & _). rewrite Ei in H.
  destruct (save _ _ _ _) as [file|]; [|discriminate H]. cbn [bind] in H. injection H as <- _.
  eexists _, ids, _. split; [reflexivity|]. split; [|split; [exact Hids|split]].
  - intros p f Hp Hf. now apply (beam_piece _ nb nf np shape).
  - rewrite map_map. reflexivity.
  - intros k v Hin Hf. apply in_map_iff. exists (k, v). cbn [fst snd]. rewrite (C60_unchanged_partial v Hf). auto.
Qed.
Print Assumptions C114_sav.

(** C114, full statement: the HDF5 copy gives the beam of the sav file, whatever its fields are.
    Proved for fields that HDF5 holds as they are (no lists, no empty or wide values; strings depend on h5py): a run from the
    sav file succeeds and leaves beside it a copy; a later run from the copy gets the same beam, and a run that opens the copy
    lazily finds the same array. *)
Theorem C114_copy_partial : forall lib d dir name st s nb nf np shape lazy, named name st "sav" ->
  d (dir, name) = Some (Sav (Some s)) -> box (S nb) (S nf) (S np) (sv_beam s) -> entries_of shape (sv_beam s) ->
  box (S nb) (S nf) (S np) (sv_id s) -> int64 (sv_id s) -> plain_fields lib (S np :: S nf :: shape) (sv_rest s) ->
  exists l w d' r data,
    create_psf lib d (dir, name) lazy = Ok (InMemory (VDict l), d')
    /\ create_psf lib d' (dir, st ++ ".h5") false = Ok (InMemory w, d') /\ same (VDict l) w
    /\ create_psf lib d' (dir, st ++ ".h5") true = Ok (OpenFile r, d')
    /\ In ("beam_ptr", VArr (S np :: S nf :: shape) data) l
    /\ at_path ["beam_ptr"] (fst r) = Some (NArr (S np :: S nf :: shape) data).
Proof.
  intros lib d dir name st s nb nf np shape lazy Hn Hd Hb He Hi H64 [Hp Hk].
  assert (Hn' : named (st ++ ".h5") st "h5").
  { destruct Hn as (_ & Hst & _). repeat split; auto. discriminate. }
  destruct (id_array_ok _ nb nf np Hi) as (ids & Ei & _ & Hids).
  set (data := concat (map snd (concat (table (sv_beam s) nf np)))).
  set (sh := S np :: S nf :: shape).
  set (l := ("beam_ptr", VArr sh (EComplex false data)) :: ("id", VArr [S np; S nf; S nb] (EInt ids)) :: sv_rest s).
  assert (Hpl : plain lib [("beam_ptr", sh)] "" (VDict l)).
  { apply plain_dict. apply (proj1 (plain_dict _ _ _ _)) in Hp as [Nd Hp]. split.
    - cbn [map fst l]. constructor; [intros [E|E]; [discriminate E|apply Hk in E; destruct E; congruence]|].
      constructor; [intros E; apply Hk in E; destruct E; congruence|exact Nd].
    - intros k v [E|[E|Hin]]; [injection E as <- <-|injection E as <- <-|now apply Hp].
      + split; [reflexivity|]. cbn [plain]. split; [discriminate|]. split; [reflexivity|]. intros z Ez. cbn in Ez. now injection Ez.
      + split; [reflexivity|]. cbn [plain]. split; [discriminate|]. split; [|intros z Ez; cbn in Ez; discriminate Ez].
        intros z Hz. destruct (Hids z Hz) as (x & y & Hx & Hy & Hzz). exact (H64 x y z Hx Hy Hzz). }
  assert (Hl : List.length l <> 1) by (cbn; discriminate).
  destruct (save_load_dict lib [("beam_ptr", sh)] "psf" l Hpl Hl) as (file & w & Es & Ew & Hs).
  exists l, w, (write d (dir, st ++ ".h5") (Hdf5 file)), file, (EComplex false data).
  assert (Ed : write d (dir, st ++ ".h5") (Hdf5 file) (dir, st ++ ".h5") = Some (Hdf5 file)).
  { unfold write. now rewrite (proj2 (fpath_eqb_spec _ _) eq_refl). }
  split; [|split; [|split; [exact Hs|split; [|split]]]].
  - unfold create_psf. cbn [fst snd]. rewrite (suffix_named _ _ _ Hn), (stem_named _ _ _ Hn), Hd.
    cbn [append String.eqb Ascii.eqb Bool.eqb]. rewrite (beam_array_ok _ nb nf np shape Hb He). cbn [bind]. rewrite Ei.
    fold data. fold sh. change (VDict (_ :: _ :: sv_rest s)) with (VDict l). rewrite Es. cbn [bind].
    rewrite (C60_unchanged_partial _ (plain_full _ _ _ _ Hpl)). reflexivity.
  - unfold create_psf. cbn [fst snd]. rewrite (suffix_named _ _ _ Hn'), Ed. cbn [append String.eqb Ascii.eqb Bool.eqb orb].
    rewrite Ew. reflexivity.
  - unfold create_psf. cbn [fst snd]. rewrite (suffix_named _ _ _ Hn'), Ed. cbn [append String.eqb Ascii.eqb Bool.eqb orb]. reflexivity.
  - now left.
  - apply (C34_stored lib [("beam_ptr", sh)] "psf" l file "beam_ptr" sh (EComplex false data) Es); [now left| |].
    + split; [reflexivity|discriminate].
    + intros z Ez. cbn in Ez. now injection Ez.
Qed.
Print Assumptions C114_copy_partial.

(** A beam of two baselines, one frequency and two polarizations whose second baseline differs from the first. *)
Definition case_sav (second : Z) : savpsf :=
  {| sv_beam := [[[([2], [(FNum 1, FNum 2); (FNum 3, FNum 4)]); ([2], [(FNum 5, FNum 0); (FNum 6, FNum 0)])]];
                 [[([2], [(FNum (inject_Z second), FNum 2); (FNum 3, FNum 4)]); ([2], [(FNum 5, FNum 0); (FNum 6, FNum 0)])]]];
     sv_id := [[[0; 1]%Z]; [[2; 3]%Z]];
     sv_rest := [("dim", VScalar (SInt 14));
                 ("image_info", VDict [("image_power_beam_arr", VArr [1] (EFloat false [FNum 7]))])] |}.
Definition case_disk (second : Z) : disk := fun p => if fpath_eqb p ("beams", "mwa.gauss.sav") then Some (Sav (Some (case_sav second))) else None.
Example C114_case : named "mwa.gauss.sav" "mwa.gauss" "sav" /\ case_disk 9 ("beams", "mwa.gauss.sav") = Some (Sav (Some (case_sav 9)))
  /\ box 2 1 2 (sv_beam (case_sav 9)) /\ entries_of [2] (sv_beam (case_sav 9)) /\ box 2 1 2 (sv_id (case_sav 9))
  /\ int64 (sv_id (case_sav 9)) /\ plain_fields lib_with_dtype [2; 1; 2] (sv_rest (case_sav 9)).
Proof.
  split; [repeat split; discriminate|]. split; [reflexivity|].
  split; [split; [reflexivity|]; intros x [<-|[<-|[]]]; (split; [reflexivity|]); intros y [<-|[]]; reflexivity|].
  split. { intros x y e [<-|[<-|[]]] [<-|[]] [<-|[<-|[]]]; split; reflexivity. }
  split; [split; [reflexivity|]; intros x [<-|[<-|[]]]; (split; [reflexivity|]); intros y [<-|[]]; reflexivity|].
  split. { intros x y z [<-|[<-|[]]] [<-|[]] [<-|[<-|[]]]; lia. }
  split.
  - cbn. repeat split; try lia; try discriminate; repeat constructor; cbn; intuition discriminate.
  - intros k [<-|[<-|[]]]; split; discriminate.
Qed.

(** C114. Only the copy beside a sav file is written; every other file, and every file when the beam is not a sav file, stays
    as it is. *)
Theorem C114_files : forall lib d dir name lazy b d', create_psf lib d (dir, name) lazy = Ok (b, d') ->
  (forall st q, named name st "sav" -> q <> (dir, st ++ ".h5") -> d' q = d q)
  /\ (forall st ext, named name st ext -> ext <> "sav" -> d' = d).
Proof.
  intros lib d dir name lazy b d' H. unfold create_psf in H. cbn [fst snd] in H. split.
  - intros st q Hn Hq. rewrite (suffix_named _ _ _ Hn), (stem_named _ _ _ Hn) in H. cbn [append String.eqb Ascii.eqb Bool.eqb] in H.
    destruct (d (dir, name)) as [[[s|]| |]|]; try discriminate H. destruct (beam_array (sv_beam s)) as [[sh data]|]; [|discriminate H].
    cbn [bind] in H. destruct (save _ _ _ _) as [file|]; [|discriminate H]. cbn [bind] in H. injection H as _ <-.
    unfold write. destruct (fpath_eqb q (dir, st ++ ".h5")) eqn:E; [|reflexivity]. apply fpath_eqb_spec in E. contradiction.
  - intros st ext Hn Hx. assert (Hs : suffix name <> ".sav") by (rewrite (suffix_named _ _ _ Hn); intros E; injection E; congruence).
    apply String.eqb_neq in Hs. rewrite Hs in H. destruct (_ || _).
    + destruct (d (dir, name)) as [[| |]|]; try discriminate H. destruct lazy; [now injection H|].
      destruct (load lib r); [|discriminate H]. cbn [bind] in H. now injection H.
    + destruct (String.eqb (suffix name) ".fits"); [discriminate H|]. now injection H.
Qed.
Print Assumptions C114_files.

(** C114 is false of a beam that differs between baselines: two sav files that differ only in the baselines after the first give
    the same beam, with no message. *)
Theorem C114_baselines_refuted : forall lib d1 d2 dir name st s1 s2 nb nf np shape lazy, named name st "sav" ->
  d1 (dir, name) = Some (Sav (Some s1)) -> d2 (dir, name) = Some (Sav (Some s2)) ->
  box (S nb) (S nf) (S np) (sv_beam s1) -> entries_of shape (sv_beam s1) ->
  box (S nb) (S nf) (S np) (sv_beam s2) -> entries_of shape (sv_beam s2) ->
  nth 0 (sv_beam s1) [] = nth 0 (sv_beam s2) [] -> sv_id s1 = sv_id s2 -> sv_rest s1 = sv_rest s2 ->
  match create_psf lib d1 (dir, name) lazy, create_psf lib d2 (dir, name) lazy with
  | Ok (b1, _), Ok (b2, _) => b1 = b2 | Err e1, Err e2 => e1 = e2 | _, _ => False end.
Proof.
  intros lib d1 d2 dir name st s1 s2 nb nf np shape lazy Hn H1 H2 B1 E1 B2 E2 H0 Hi Hr. unfold create_psf. cbn [fst snd].
  rewrite (suffix_named _ _ _ Hn), (stem_named _ _ _ Hn), H1, H2. cbn [append String.eqb Ascii.eqb Bool.eqb].
  rewrite (beam_array_ok _ nb nf np shape B1 E1), (beam_array_ok _ nb nf np shape B2 E2). cbn [bind].
  assert (T : table (sv_beam s1) nf np = table (sv_beam s2) nf np) by (unfold table; now rewrite H0).
  rewrite T, Hi, Hr. destruct (save _ _ _ _); reflexivity.
Qed.
Print Assumptions C114_baselines_refuted.
Example C114_baselines_case : sv_beam (case_sav 9) <> sv_beam (case_sav 8)
  /\ exists b, (match create_psf lib_with_dtype (case_disk 9) ("beams", "mwa.gauss.sav") false with Ok (b, _) => Some b | Err _ => None end) = Some b
      /\ (match create_psf lib_with_dtype (case_disk 8) ("beams", "mwa.gauss.sav") false with Ok (b, _) => Some b | Err _ => None end) = Some b.
Proof.
  split.
  - intros H. apply (f_equal (fun a => sav_entry a 1 0 0)) in H. cbn in H. discriminate H.
  - eexists. split; vm_compute; reflexivity.
Qed.

(** C114 is false of file names with any other ending: no beam is read and nothing is said; the run fails at the next step with
    an error about None. *)
Theorem C114_ending_refuted : forall lib d dir name st ext lazy per_baseline, named name st ext ->
  ~ In ext ["sav"; "h5"; "hdf5"; "fits"] ->
  create_psf lib d (dir, name) lazy = Ok (NoBeam, d) /\ switch_off NoBeam per_baseline = Err TypeError.
Proof.
  intros lib d dir name st ext lazy per Hn Hx. split; [|reflexivity]. unfold create_psf. cbn [fst snd]. rewrite (suffix_named _ _ _ Hn).
  assert (G : forall e, In e ["sav"; "h5"; "hdf5"; "fits"] -> String.eqb ("." ++ ext) ("." ++ e) = false).
  { intros e He. apply String.eqb_neq. intros E. cbn in E. injection E as ->. contradiction. }
  change ".sav" with ("." ++ "sav"). change ".h5" with ("." ++ "h5"). change ".hdf5" with ("." ++ "hdf5"). change ".fits" with ("." ++ "fits").
  rewrite !G by (cbn; tauto). reflexivity.
Qed.
Print Assumptions C114_ending_refuted.
Example C114_ending_case : named "beam.SAV" "beam" "SAV" /\ ~ In "SAV" ["sav"; "h5"; "hdf5"; "fits"]
  /\ create_psf lib_with_dtype (case_disk 9) ("beams", "beam.SAV") false = Ok (NoBeam, case_disk 9).
Proof. split; [repeat split; discriminate|]. split; [cbn; intuition discriminate|reflexivity]. Qed.

(** C114 is false of the option beam_per_baseline: it should be turned off when the beam image is a single value, but no beam
    ever changes it. *)
Theorem C114_option_refuted : forall b per_baseline r, switch_off b per_baseline = Ok r -> r = per_baseline.
Proof.
  intros b per r H. unfold switch_off in H. destruct b as [|v|f]; [discriminate H| |].
  - destruct v as [l| | | | |]; try discriminate H. destruct (lookup _ l) as [v|]; [|discriminate H].
    destruct v as [i| | | | |]; try discriminate H. destruct (lookup _ i) as [v|]; [|discriminate H].
    destruct v as [|? ?|? ?|s|?|]; try discriminate H; try (now injection H). destruct s; try discriminate H; now injection H.
  - destruct (lookup _ (fst f)) as [n|]; [|discriminate H]. destruct n as [i a| | |]; try discriminate H.
    destruct (lookup _ i) as [n|]; [|discriminate H]. destruct n; try discriminate H; now injection H.
Qed.
Print Assumptions C114_option_refuted.
Example C114_option_case : switch_off (InMemory (VDict (sv_rest (case_sav 9)))) true = Ok true.
Proof. reflexivity. Qed.

(** C114. Which file each name asks for, and what happens when it is not usable. *)
Theorem C114_errors : forall lib d dir name st ext lazy, named name st ext ->
  (ext = "fits" -> create_psf lib d (dir, name) lazy = Err SystemExit)
  /\ (In ext ["sav"; "h5"; "hdf5"] -> d (dir, name) = None -> create_psf lib d (dir, name) lazy = Err FileMissing)
  /\ (In ext ["h5"; "hdf5"] -> forall r, d (dir, name) = Some (Hdf5 r) ->
       create_psf lib d (dir, name) true = Ok (OpenFile r, d)
       /\ create_psf lib d (dir, name) false = match load lib r with Ok v => Ok (InMemory v, d) | Err e => Err e end).
Proof.
  intros lib d dir name st ext lazy Hn. unfold create_psf. cbn [fst snd]. rewrite (suffix_named _ _ _ Hn). split; [|split].
  - intros ->. reflexivity.
  - intros [<-|[<-|[<-|[]]]] ->; reflexivity.
  - intros [<-|[<-|[]]] r ->; (split; [reflexivity|]; cbn [append String.eqb Ascii.eqb Bool.eqb orb]; now destruct (load lib r)).
Qed.
Print Assumptions C114_errors.
