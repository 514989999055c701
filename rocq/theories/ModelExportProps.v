(** C117: a model written for FHD is the model that was written. *)
From Coq Require Import String Ascii DecimalString Lqa.
From Verif Require Import Base PyIndex Cplx Obs ModelRead ModelReadSpec ModelReadProofs ModelReadProps
  ModelExport ModelExportSpec ModelExportProofs.
Import ListNotations.
Open Scope nat_scope.
Open Scope list_scope.

Lemma convert_runs single vis d o n m d0 : from_root d -> unspaced d -> identifier o -> n <= 4 -> n <= List.length vis ->
  m_dir m (pieces slash d) = true -> m_idl m = true ->
  exists m', convert single vis d o n m = (m', Ok tt)
    /\ m_cwd m' = pieces slash d
    /\ forall p, p < n -> m_sav m' (pieces slash d ++ [file_of o (nth p pol_table ""%string)])
                          = Some (Some (idl_copy single (transpose (nth p vis d0)))).
Proof.
  intros R U I N L D ID. unfold convert. rewrite h5_path by assumption. rewrite removelast_last, D. cbn [negb].
  assert (LP : List.length (firstn n pol_table) = n) by (rewrite firstn_length; cbn; lia).
  destruct (write_all o d0 (firstn n pol_table) vis (fun _ => None)) as (h & E & K & _);
    [lia|apply NoDup_firstn; repeat constructor; cbn; intuition discriminate|].
  rewrite E. assert (AP : forall x, at_path x d = pieces slash d) by (intros x; destruct R as (r & ->); reflexivity).
  rewrite AP. cbn [m_dir with_h5]. rewrite D. cbn [negb]. unfold run_command. cbn [m_idl with_cwd with_h5]. rewrite ID.
  assert (DN : d <> EmptyString) by (destruct R as (r & ->); discriminate).
  rewrite command_words by assumption. rewrite (pieces_one white d DN (unspaced_white d U)). cbn [app skipn idl_run].
  rewrite h5_path by assumption. cbn [m_h5 with_cwd with_h5]. unfold put at 1. rewrite path_eqb_refl, fix_digits.
  eexists. split; [reflexivity|]. split; [rewrite (proj1 (loop_dir _ _ _ _ _ _)); reflexivity|].
  intros p P. apply (loop_all single h d o (fun p => transpose (nth p vis d0)) R I).
  - intros q Q. apply in_seq in Q. split; [lia|]. assert (K' := K q ltac:(lia)).
    rewrite <- (firstn_skipn n pol_table) at 1. rewrite app_nth1 by lia. exact K'.
  - lia.
  - left. apply in_seq. lia.
Qed.

(** C117, partial: in an existing directory, given from the root and without white space, and with IDL, a model of up to four
    polarisations is written so that reading it gives every visibility rounded to single precision. (A last axis of length one
    is left out.) *)
Theorem C117_back_partial : forall (P D : Type) (dict_of : P -> result D) (params : string -> option P) prm dct
  single vis d o n m f b d0 names,
  from_root d -> unspaced d -> identifier o -> 1 <= n <= 4 -> n <= List.length vis ->
  m_dir m (pieces slash d) = true -> m_idl m = true -> 2 <= b ->
  (forall p, p < n -> nd_shape (nth p vis d0) = [f; b]) ->
  params (o ++ "_params.sav")%string = Some prm -> dict_of prm = Ok dct ->
  exists m' v, convert single vis d o n m = (m', Ok tt)
    /\ import_sav dict_of (view m' (pieces slash d) params) o (["XX"; "YY"; "XY"; "YX"]%string ++ names) n = Ok (v, dct)
    /\ nd_shape v = [n; f; b]
    /\ forall p i j, p < n -> i < f -> j < b -> nd_at v [p; i; j] = single (nd_at (nth p vis d0) [i; j]).
Proof.
  intros P D dict_of params prm dct single vis d o n m f b d0 names R U I (N1 & N4) L DI ID B S EP ED.
  destruct (convert_runs single vis d o n m d0 R U I N4 L DI ID) as (m' & E & _ & W). exists m'.
  destruct (C89_sav P D dict_of (view m' (pieces slash d) params) o (["XX"; "YY"; "XY"; "YX"]%string ++ names) n
             (fun p => transpose (map_nd single (transpose (transpose (nth p vis d0))))) prm dct [b; f]) as (v & EV & SV & AV).
  - lia.
  - split; [rewrite app_length; cbn; lia|]. split; [|exact EP]. intros p Hp. left. cbn [view s_vis].
    rewrite app_nth1 by (cbn; lia). exact (W p Hp).
  - exact ED.
  - intros p Hp. unfold transpose, map_nd. cbn [nd_shape]. rewrite !rev_involutive, (S p Hp). reflexivity.
  - exists v. split; [exact E|]. split; [exact EV|]. split; [rewrite SV; reflexivity|]. intros p i j Hp Hi Hj.
    assert (A := AV p [j; i] Hp ltac:(repeat constructor; assumption)). cbn [rev app] in A. rewrite A. reflexivity.
Qed.
Print Assumptions C117_back_partial.

(** What single precision holds comes back unchanged, *)
Theorem C117_exact : forall (P D : Type) (dict_of : P -> result D) (params : string -> option P) prm dct
  single vis d o n m f b d0 names,
  from_root d -> unspaced d -> identifier o -> 1 <= n <= 4 -> n <= List.length vis ->
  m_dir m (pieces slash d) = true -> m_idl m = true -> 2 <= b ->
  (forall p, p < n -> nd_shape (nth p vis d0) = [f; b]) ->
  params (o ++ "_params.sav")%string = Some prm -> dict_of prm = Ok dct ->
  (forall p i j, p < n -> i < f -> j < b -> single (nd_at (nth p vis d0) [i; j]) = nd_at (nth p vis d0) [i; j]) ->
  exists m' v, convert single vis d o n m = (m', Ok tt)
    /\ import_sav dict_of (view m' (pieces slash d) params) o (["XX"; "YY"; "XY"; "YX"]%string ++ names) n = Ok (v, dct)
    /\ nd_shape v = [n; f; b]
    /\ forall p i j, p < n -> i < f -> j < b -> nd_at v [p; i; j] = nd_at (nth p vis d0) [i; j].
Proof.
  intros P D dict_of params prm dct single vis d o n m f b d0 names R U I N L DI ID B S EP ED X.
  destruct (C117_back_partial P D dict_of params prm dct single vis d o n m f b d0 names R U I N L DI ID B S EP ED)
    as (m' & v & E & EV & SV & AV).
  exists m', v. repeat (split; [assumption|]). intros p i j Hp Hi Hj. rewrite AV by assumption. now apply X.
Qed.
Print Assumptions C117_exact.

(** but no rounding to single precision keeps the visibility 1 + 2^-24: the model read back is another one. *)
Lemma not_single : ~ single_number (1 + (1 # 16777216)).
Proof.
  intros (z & a & b & Hz & E). unfold Qeq, Qmult, Qplus, inject_Z in E. cbn [Qnum Qden] in E.
  assert (Ha : (0 < 2 ^ Z.of_nat a)%Z) by (apply Z.pow_pos_nonneg; lia).
  assert (Hb : (0 < 2 ^ Z.of_nat b)%Z) by (apply Z.pow_pos_nonneg; lia).
  assert (E' : (16777217 * 2 ^ Z.of_nat a = z * 2 ^ Z.of_nat b * 2 ^ 24)%Z) by (change (2 ^ 24)%Z with 16777216%Z; lia). clear E.
  change (2 ^ 24)%Z with 16777216%Z in Hz.
  destruct (Z_lt_le_dec (Z.of_nat a) (Z.of_nat b + 24)) as [C|C].
  - rewrite <- Z.mul_assoc, <- Z.pow_add_r in E' by lia.
    replace (Z.of_nat b + 24)%Z with (Z.of_nat a + (1 + (Z.of_nat b + 24 - Z.of_nat a - 1)))%Z in E' by lia.
    rewrite (Z.pow_add_r 2 (Z.of_nat a)), (Z.pow_add_r 2 1) in E' by lia.
    set (k := (2 ^ (Z.of_nat b + 24 - Z.of_nat a - 1))%Z) in E'. change (2 ^ 1)%Z with 2%Z in E'.
    assert (16777217 = z * (2 * k))%Z by nia. lia.
  - rewrite <- Z.mul_assoc, <- Z.pow_add_r in E' by lia.
    replace (Z.of_nat a) with (Z.of_nat b + 24 + (Z.of_nat a - Z.of_nat b - 24))%Z in E' at 1 by lia.
    rewrite (Z.pow_add_r 2 (Z.of_nat b + 24)) in E' by lia.
    assert (0 < 2 ^ (Z.of_nat b + 24))%Z by (apply Z.pow_pos_nonneg; lia).
    assert (0 < 2 ^ (Z.of_nat a - Z.of_nat b - 24))%Z by (apply Z.pow_pos_nonneg; lia).
    set (k := (2 ^ (Z.of_nat a - Z.of_nat b - 24))%Z) in *. set (c := (2 ^ (Z.of_nat b + 24))%Z) in *.
    assert (16777217 * k = z)%Z by nia. lia.
Qed.
Definition fine : C := mkC (Q2Qc (1 + (1 # 16777216))) (Q2Qc 0).
Lemma rounds_moves single : rounds single -> single fine <> fine.
Proof.
  intros H E. destruct (H fine) as (A & _). rewrite E in A. apply not_single. destruct A as (z & a & b & Hz & A).
  exists z, a, b. split; [exact Hz|]. rewrite <- A. unfold fine. cbn [re Q2Qc this]. apply Qmult_comp; [|reflexivity]. symmetry. apply Qred_correct.
Qed.
Theorem C117_single_refuted : forall (P D : Type) (dict_of : P -> result D) (params : string -> option P) prm dct single d o m m' v names,
  rounds single -> from_root d -> unspaced d -> identifier o -> m_dir m (pieces slash d) = true -> m_idl m = true ->
  params (o ++ "_params.sav")%string = Some prm -> dict_of prm = Ok dct ->
  convert single [NdArr [1; 2] (fun _ => fine)] d o 1 m = (m', Ok tt) ->
  import_sav dict_of (view m' (pieces slash d) params) o (["XX"; "YY"; "XY"; "YX"]%string ++ names) 1 = Ok (v, dct) ->
  nd_at v [0; 0; 0] <> fine.
Proof.
  intros P D dict_of params prm dct single d o m m' v names RO R U I DI ID EP ED E EV.
  destruct (C117_back_partial P D dict_of params prm dct single [NdArr [1; 2] (fun _ => fine)] d o 1 m 1 2 (NdArr [] (fun _ => fine)) names)
    as (m2 & v2 & E2 & EV2 & _ & A); try assumption; try (cbn; lia).
  { intros p Hp. assert (p = 0) by lia. subst p. reflexivity. }
  rewrite E in E2. injection E2 as <-. rewrite EV in EV2. injection EV2 as <-. rewrite A by lia. apply rounds_moves. exact RO.
Qed.
Print Assumptions C117_single_refuted.

(** The working directory is not the one before: whatever is named relative to it afterwards is somewhere else. *)
Theorem C117_directory_refuted : forall single vis d o n m,
  from_root d -> unspaced d -> identifier o -> n <= 4 -> n <= List.length vis ->
  m_dir m (pieces slash d) = true -> m_idl m = true -> m_cwd m <> pieces slash d ->
  exists m', convert single vis d o n m = (m', Ok tt)
    /\ forall s, absolute s = false -> at_path m' s <> at_path m s.
Proof.
  intros single vis d o n m R U I N L DI ID NE.
  destruct (convert_runs single vis d o n m (NdArr [] (fun _ => fine)) R U I N L DI ID) as (m' & E & C & _). exists m'. split; [exact E|].
  intros s A H. unfold at_path in H. rewrite A, C in H. apply app_inv_tail in H. congruence.
Qed.
Print Assumptions C117_directory_refuted.

(** A directory with white space in its name gets the HDF5 file and no model: IDL looks elsewhere, and nothing is reported. *)
Lemma pieces_unsep sep s : forall w, In w (pieces sep s) -> forall c, In c (chars w) -> sep c = false.
Proof.
  induction s as [|x s IH]; intros w Hw c Hc; [destruct Hw|]. destruct (sep x) eqn:X; [cbn [pieces] in Hw; rewrite X in Hw; eauto|].
  destruct s as [|y s]; [cbn [pieces] in Hw; rewrite X in Hw; destruct Hw as [<-|[]]; destruct Hc as [<-|[]]; exact X|].
  remember (String y s) as z eqn:Z in *. cbn [pieces] in Hw. rewrite X in Hw. rewrite Z in Hw at 1. destruct (sep y).
  - destruct Hw as [<-|Hw]; [destruct Hc as [<-|[]]; exact X|eauto].
  - destruct (pieces sep z) as [|w0 r] eqn:PZ; [destruct Hw as [<-|[]]; destruct Hc as [<-|[]]; exact X|].
    destruct Hw as [<-|Hw]; [destruct Hc as [<-|Hc]; [exact X|eapply IH; [now left|exact Hc]]|eapply IH; [now right; exact Hw|exact Hc]].
Qed.
Lemma pieces_chars sep s : forall w c, In w (pieces sep s) -> In c (chars w) -> In c (chars s).
Proof.
  induction s as [|x s IH]; intros w c Hw Hc; [destruct Hw|]. destruct (sep x) eqn:X.
  { cbn [pieces] in Hw. rewrite X in Hw. right. eauto. }
  destruct s as [|y s]; [cbn [pieces] in Hw; rewrite X in Hw; destruct Hw as [<-|[]]; exact Hc|].
  remember (String y s) as z eqn:Z in *. cbn [pieces] in Hw. rewrite X in Hw. rewrite Z in Hw at 1. destruct (sep y).
  - destruct Hw as [<-|Hw]; [destruct Hc as [<-|[]]; now left|right; eauto].
  - destruct (pieces sep z) as [|w0 r] eqn:PZ; [destruct Hw as [<-|[]]; destruct Hc as [<-|[]]; now left|].
    destruct Hw as [<-|Hw]; [destruct Hc as [<-|Hc]; [now left|right; eapply IH; [now left|exact Hc]]|right; eapply IH; [now right; exact Hw|exact Hc]].
Qed.
Lemma chars_pieces sep s c : In c (chars s) -> sep c = false -> exists w, In w (pieces sep s) /\ In c (chars w).
Proof.
  induction s as [|x s IH]; intros Hc HS; [destruct Hc|]. destruct (sep x) eqn:X.
  { cbn [pieces]. rewrite X. destruct Hc as [->|Hc]; [congruence|]. exact (IH Hc HS). }
  destruct s as [|y s]; [cbn [pieces]; rewrite X; exists (String x ""); split; [now left|exact Hc]|].
  remember (String y s) as z eqn:Z in *.
  assert (EP : pieces sep (String x z) = if sep y then String x "" :: pieces sep z
                                         else match pieces sep z with w :: r => String x w :: r | [] => [String x ""] end).
  { cbn [pieces]. rewrite X, Z. reflexivity. }
  rewrite EP. destruct (sep y) eqn:Y.
  - destruct Hc as [->|Hc]; [exists (String c ""); split; now left|]. destruct (IH Hc HS) as (w & A & B). exists w. split; [now right|exact B].
  - destruct (pieces_start sep y s Y) as (w0 & r & PZ). rewrite <- Z in PZ. rewrite PZ in *.
    destruct Hc as [->|Hc]; [exists (String c w0); split; now left|]. destruct (IH Hc HS) as (w & [<-|A] & B).
    + exists (String x w0). split; [now left|now right].
    + exists w. split; [now right|exact B].
Qed.
Theorem C117_space_refuted : forall single vis d o n m sp,
  from_root d -> In sp (chars d) -> white sp = true -> identifier o -> n <= 4 -> n <= List.length vis ->
  m_dir m (pieces slash d) = true -> m_idl m = true -> (forall p, m_h5 m p = None) ->
  exists m', convert single vis d o n m = (m', Ok tt) /\ m_sav m' = m_sav m
    /\ m_h5 m' (pieces slash d ++ [(o ++ "_vis_model.h5")%string]) <> None.
Proof.
  intros single vis d o n m sp R HS WS I N L D ID NH. unfold convert. rewrite h5_path by assumption. rewrite removelast_last, D. cbn [negb].
  assert (LP : List.length (firstn n pol_table) = n) by (rewrite firstn_length; cbn; lia).
  destruct (write_all o (NdArr [] (fun _ => fine)) (firstn n pol_table) vis (fun _ => None)) as (h & E & K & _);
    [lia|apply NoDup_firstn; repeat constructor; cbn; intuition discriminate|].
  rewrite E. assert (AP : forall x, at_path x d = pieces slash d) by (intros x; destruct R as (r & ->); reflexivity).
  rewrite AP. cbn [m_dir with_h5]. rewrite D. cbn [negb]. unfold run_command. cbn [m_idl with_cwd with_h5]. rewrite ID.
  rewrite command_words by assumption. set (num := NilEmpty.string_of_uint (Nat.to_uint n)).
  set (m2 := with_cwd _ _).
  assert (H5 : m_h5 m2 = put (m_h5 m) (pieces slash d ++ [(o ++ "_vis_model.h5")%string]) h) by reflexivity.
  assert (NI : idl_run single (skipn 6 (["idl"; "-IDL_DEVICE"; "ps"; "-e"; "convert_model_arr_to_sav"; "-args"]%string ++ pieces white d ++ [o; num])) m2 = m2).
  { cbn [app skipn]. destruct (pieces white d ++ [o; num]) as [|a0 [|a1 [|a2 r]]] eqn:W; try reflexivity. cbn [idl_run].
    assert (A0 : absolute a0 = true /\ forall c, In c (chars a0) -> white c = false).
    { assert (W0 : exists r', pieces white d = a0 :: r' /\ absolute a0 = true).
      { destruct R as (t & ->). assert (S0 : white "/"%char = false) by reflexivity. destruct (pieces_start white "/" t S0) as (w & q & PW).
        rewrite PW in W. cbn [app] in W. injection W as -> _. exists q. split; [exact PW|].
        destruct t as [|y t]; [cbn in PW; injection PW as <- _; reflexivity|]. remember (String y t) as z eqn:Z in *. cbn [pieces] in PW.
        rewrite S0 in PW. rewrite Z in PW at 1. destruct (white y); [injection PW as <- _; reflexivity|].
        destruct (pieces white z); injection PW as <- _; reflexivity. }
      destruct W0 as (q & PW & A). split; [exact A|]. apply (pieces_unsep white d). rewrite PW. now left. }
    assert (A1 : forall c, In c (chars a1) -> white c = false).
    { assert (IN : In a1 (pieces white d ++ [o; num])) by (rewrite W; right; now left).
      apply in_app_or in IN as [IN|[<-|[<-|[]]]]; [exact (pieces_unsep white d a1 IN)|apply unspaced_white; apply I|apply unspaced_white, digits_unspaced]. }
    assert (P : m_h5 m2 (at_path m2 (h5_name a0 a1)) = None).
    { rewrite H5. unfold put. rewrite path_eqb_false; [apply NH|]. intros EQ.
      assert (NS : slash sp = false). { destruct (slash sp) eqn:SL; [|reflexivity]. unfold slash in SL. apply Ascii.eqb_eq in SL. subst sp. discriminate WS. }
      destruct (chars_pieces slash d sp HS NS) as (w & WI & WC).
      assert (WP : In w (at_path m2 (h5_name a0 a1))) by (rewrite EQ; apply in_or_app; now left).
      unfold at_path in WP. destruct A0 as (A0 & A0').
      assert (AB : absolute (h5_name a0 a1) = true) by (unfold h5_name; destruct a0; [discriminate A0|exact A0]). rewrite AB in WP. cbn [app] in WP.
      assert (IC := pieces_chars slash _ w sp WP WC). unfold h5_name in IC. rewrite !chars_app in IC.
      repeat (apply in_app_or in IC; destruct IC as [IC|IC]).
      - rewrite (A0' _ IC) in WS. discriminate.
      - destruct IC as [<-|[]]. discriminate NS.
      - rewrite (A1 _ IC) in WS. discriminate.
      - cbn [chars In] in IC. repeat (destruct IC as [<-|IC]; [discriminate WS|]). destruct IC. }
    rewrite P. reflexivity. }
  rewrite NI. exists m2. split; [reflexivity|]. split; [reflexivity|]. rewrite H5. unfold put. rewrite path_eqb_refl. discriminate.
Qed.
Print Assumptions C117_space_refuted.

(** A directory given relative to the working directory gets no model either: IDL, started inside of it, looks for it there. *)
Theorem C117_relative_refuted : forall single vis d o n m,
  d <> EmptyString -> ~ In "/"%char (chars d) -> unspaced d -> identifier o -> n <= 4 -> n <= List.length vis ->
  m_dir m (m_cwd m ++ [d]) = true -> m_idl m = true -> (forall p, m_h5 m p = None) ->
  exists m', convert single vis d o n m = (m', Ok tt) /\ m_sav m' = m_sav m.
Proof.
  intros single vis d o n m DN DS U I N L D ID NH. unfold convert.
  assert (S : ~ In "/"%char (chars "_vis_model.h5")) by (vm_compute; intuition discriminate).
  destruct (id_suffix o _ I S) as (NN & S').
  assert (RA : absolute d = false). { destruct d as [|c d]; [congruence|]. cbn. apply (slash_free _ DS). now left. }
  assert (HP : forall x, at_path x (h5_name d o) = m_cwd x ++ [d; (o ++ "_vis_model.h5")%string]).
  { intros x. unfold at_path, h5_name. change ("/" ++ o ++ "_vis_model.h5")%string with (String "/" (o ++ "_vis_model.h5")).
    assert (AB : absolute (d ++ String "/" (o ++ "_vis_model.h5")) = false) by (destruct d; [congruence|exact RA]). rewrite AB.
    rewrite pieces_app by reflexivity. rewrite (pieces_one slash d DN (slash_free _ DS)), (pieces_one slash _ NN (slash_free _ S')). reflexivity. }
  assert (AP : forall x, at_path x d = m_cwd x ++ [d]). { intros x. unfold at_path. rewrite RA, (pieces_one slash d DN (slash_free _ DS)). reflexivity. }
  assert (LP : List.length (firstn n pol_table) = n) by (rewrite firstn_length; cbn; lia).
  destruct (write_all o (NdArr [] (fun _ => fine)) (firstn n pol_table) vis (fun _ => None)) as (h & E & K & _);
    [lia|apply NoDup_firstn; repeat constructor; cbn; intuition discriminate|].
  rewrite HP. replace (m_cwd m ++ [d; (o ++ "_vis_model.h5")%string]) with ((m_cwd m ++ [d]) ++ [(o ++ "_vis_model.h5")%string]) by (now rewrite <- app_assoc).
  rewrite removelast_last, D. cbn [negb]. rewrite E, AP. cbn [m_dir m_cwd with_h5]. rewrite D. cbn [negb]. unfold run_command. cbn [m_idl with_cwd with_h5]. rewrite ID.
  rewrite command_words by assumption. rewrite (pieces_one white d DN (unspaced_white d U)). cbn [app skipn idl_run]. rewrite HP.
  cbn [m_h5 m_cwd with_cwd with_h5]. unfold put at 1. rewrite path_eqb_false.
  - rewrite NH. eexists. split; reflexivity.
  - intros EQ. apply (f_equal (@List.length string)) in EQ. rewrite !app_length in EQ. cbn [List.length] in EQ. lia.
Qed.
Print Assumptions C117_relative_refuted.

(** Without IDL, or with fewer polarisations than asked for, the call fails and leaves an HDF5 file. *)
Theorem C117_fails : forall single vis d o n m,
  from_root d -> identifier o -> n <= 4 -> m_dir m (pieces slash d) = true ->
  (List.length vis < n -> exists m', convert single vis d o n m = (m', Err IndexError) /\ m_sav m' = m_sav m)
  /\ (n <= List.length vis -> m_idl m = false -> exists m', convert single vis d o n m = (m', Err FileMissing) /\ m_sav m' = m_sav m).
Proof.
  intros single vis d o n m R I N D. unfold convert. rewrite h5_path by assumption. rewrite removelast_last, D. cbn [negb].
  assert (LP : List.length (firstn n pol_table) = n) by (rewrite firstn_length; cbn; lia). split.
  - intros L. assert (W : forall pols vis h, List.length vis < List.length pols -> snd (write_sets o vis pols h) = Err IndexError).
    { induction pols as [|p pols IH]; intros w h Hw; [cbn in Hw; lia|]. destruct w as [|a w]; [reflexivity|]. cbn [write_sets]. apply IH. cbn in Hw. lia. }
    specialize (W (firstn n pol_table) vis (fun _ => None) ltac:(lia)). destruct (write_sets _ _ _ _) as [h r]. cbn [snd] in W. subst r.
    eexists. split; reflexivity.
  - intros L ID. destruct (write_all o (NdArr [] (fun _ => fine)) (firstn n pol_table) vis (fun _ => None)) as (h & E & K & _);
      [lia|apply NoDup_firstn; repeat constructor; cbn; intuition discriminate|].
    rewrite E. assert (AP : forall x, at_path x d = pieces slash d) by (intros x; destruct R as (r & ->); reflexivity).
    rewrite AP. cbn [m_dir with_h5]. rewrite D. cbn [negb]. unfold run_command. cbn [m_idl with_cwd with_h5]. rewrite ID. eexists. split; reflexivity.
Qed.
Print Assumptions C117_fails.

(** A missing directory is noticed, and nothing is written. *)
Theorem C117_missing : forall single vis d o n m, from_root d -> identifier o -> m_dir m (pieces slash d) = false ->
  convert single vis d o n m = (m, Err FileMissing).
Proof. intros single vis d o n m R I D. unfold convert. rewrite h5_path by assumption. rewrite removelast_last, D. reflexivity. Qed.
Print Assumptions C117_missing.

(** Two polarisations, three channels and two records of small integers in /data/m: the model that comes back. *)
Definition case_machine : machine :=
  {| m_cwd := ["home"%string]; m_dir := fun p => path_eqb p ["data"; "m"]%string; m_h5 := fun _ => None; m_sav := fun _ => None; m_idl := true |}.
Definition case_vis : list (ndarr C) :=
  map (fun k => NdArr [3; 2] (fun i => mkC (Q2Qc (inject_Z (Z.of_nat (k * 100 + nth 0 i 0 * 10 + nth 1 i 0)))) (Q2Qc 1))) [1; 2].
Example C117_case :
  from_root "/data/m" /\ unspaced "/data/m" /\ identifier "1061316296"
  /\ match convert (fun z => z) case_vis "/data/m" "1061316296" 2 case_machine with
     | (m', Ok _) => match import_sav (fun _ => Ok tt) (view m' ["data"; "m"]%string (fun _ => Some tt)) "1061316296" ["XX"; "YY"; "XY"; "YX"]%string 2 with
                     | Ok (v, _) => nd_shape v = [2; 3; 2] /\ nd_at v [1; 2; 1] = mkC (Q2Qc 221) (Q2Qc 1) | _ => False end
     | _ => False
     end.
Proof.
  assert (U : forall s, forallb (fun c => negb (white c)) (chars s) = true -> unspaced s).
  { intros s H c Hc X. apply white_spec in X. rewrite forallb_forall in H. specialize (H c Hc). rewrite X in H. discriminate. }
  split; [eexists; reflexivity|]. split; [apply U; reflexivity|]. split.
  - split; [discriminate|]. split; [apply U; reflexivity|]. vm_compute. intuition discriminate.
  - vm_compute. split; [reflexivity|]. f_equal; apply Qc_is_canon; reflexivity.
Qed.
(** A rounding to single precision: away with everything behind the point and beyond 24 bits. *)
Definition case_single (z : C) : C := mkC (Q2Qc (inject_Z (Qfloor (re z) mod 16777216))) (Q2Qc (inject_Z (Qfloor (im z) mod 16777216))).
Example C117_case_rounds : rounds case_single.
Proof.
  assert (H : forall q, single_number (Q2Qc (inject_Z (Qfloor q mod 16777216)))).
  { intros q. exists (Qfloor q mod 16777216)%Z, 0, 0. assert (B := Z.mod_pos_bound (Qfloor q) 16777216 ltac:(lia)). split.
    - change (2 ^ 24)%Z with 16777216%Z. lia.
    - cbn [Q2Qc this]. rewrite Qred_correct. reflexivity. }
  intros z. split; apply H.
Qed.
