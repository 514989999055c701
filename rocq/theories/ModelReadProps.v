(** C89, C90: model visibilities read from files. *)
From Coq Require Import String.
From Verif Require Import Base PyIndex Cplx VisWeights Obs ObsProps UvHeader UvHeaderSpec UvHeaderProofs UvHeaderProps
  TransferBp TransferBpProofs ModelRead ModelReadSpec ModelReadProofs.
Import ListNotations.
Open Scope nat_scope.
Open Scope list_scope.

(** One sav file per polarisation, all of one shape: the model of polarisation p is the array of its file with the axes
    reversed, and the parameters are those of the directory. *)
Theorem C89_sav : forall (P D : Type) (dict_of : P -> result D) dir obs_id pols n a params d shape,
  0 < n -> model_dir dir obs_id pols n a params -> dict_of params = Ok d ->
  (forall p, p < n -> nd_shape (a p) = shape) ->
  exists v, import_sav dict_of dir obs_id pols n = Ok (v, d) /\ nd_shape v = n :: rev shape
    /\ forall p idx, p < n -> within shape idx -> nd_at v (p :: rev idx) = nd_at (a p) idx.
Proof.
  intros P D dict_of dir obs_id pols n a params d shape N (L & M & EP) ED S.
  unfold import_sav, readsav at 1, params_file. rewrite EP. cbn [bind]. rewrite ED. cbn [bind].
  rewrite (read_file dir obs_id pols 0 (a 0)) by (try apply M; lia). cbn [bind].
  rewrite (proj2 (Nat.eqb_neq n 0)) by lia.
  destruct (map_res_total
    (fun p => x <- read_pol dir obs_id pols p ;; nd_fill (nd_shape (transpose (a 0))) x)
    (fun p b => forall idx, within shape idx -> nd_at b (rev idx) = nd_at (a p) idx) (seq 1 (n - 1))) as (rest & E & F).
  { intros p I. apply in_seq in I. rewrite (read_file dir obs_id pols p (a p)) by (try apply M; lia). cbn [bind].
    replace (nd_shape (transpose (a 0))) with (nd_shape (transpose (a p)))
      by (cbn [transpose nd_shape]; rewrite !S by lia; reflexivity).
    destruct (fill_same (transpose (a p))) as (b & E & _ & G). exists b. split; [exact E|].
    intros idx W. rewrite G.
    - cbn [transpose nd_at]. now rewrite rev_involutive.
    - cbn [transpose nd_shape]. rewrite S by lia. apply within_rev, W. }
  rewrite E. cbn [bind]. eexists. split; [reflexivity|]. cbn [nd_shape transpose]. split; [rewrite S by lia; reflexivity|].
  intros p idx Lp W. cbn [nd_at]. destruct p as [|p]; cbn [nth].
  - cbn [nd_at transpose]. now rewrite rev_involutive.
  - pose proof (forall2_nth _ _ _ 0 (transpose (a 0)) F p) as G. cbv beta in G. rewrite seq_length in G.
    rewrite seq_nth in G by lia. cbn [Nat.add] in G. unfold transpose in G. apply G; [lia|exact W].
Qed.
Print Assumptions C89_sav.

(** Nothing is left half read: without the parameters, or without the file of one of the polarisations, the program
    ends. *)
Theorem C89_missing : forall (P D : Type) (dict_of : P -> result D) dir obs_id pols n,
  0 < n -> n <= List.length pols ->
  let file p := s_vis dir (obs_id ++ "_vis_model_" ++ nth p pols "" ++ ".sav")%string in
  s_params dir (obs_id ++ "_params.sav")%string = None
  \/ (exists params d shape, s_params dir (obs_id ++ "_params.sav")%string = Some params /\ dict_of params = Ok d
      /\ (forall p, p < n -> file p = None \/ exists a, model_file dir obs_id (nth p pols ""%string) a /\ nd_shape a = shape)
      /\ exists p, p < n /\ file p = None) ->
  import_sav dict_of dir obs_id pols n = Err SystemExit.
Proof.
  intros P D dict_of dir obs_id pols n N L file H. unfold import_sav, readsav at 1, params_file.
  destruct H as [->|(params & d & shape & EP & ED & A & p & Lp & Ep)]; [reflexivity|].
  rewrite EP. cbn [bind]. rewrite ED. cbn [bind].
  destruct (A 0 N) as [E0|(a0 & M0 & S0)].
  - rewrite (read_missing dir obs_id pols 0) by (try exact E0; lia). reflexivity.
  - rewrite (read_file dir obs_id pols 0 a0) by (try exact M0; lia). cbn [bind].
    rewrite (proj2 (Nat.eqb_neq n 0)) by lia.
    assert (P0 : p <> 0).
    { intros ->. unfold file in Ep. destruct M0 as [M|[M _]]; congruence. }
    rewrite (map_res_stops _ _ p SystemExit); [reflexivity|apply in_seq; lia| |].
    + rewrite (read_missing dir obs_id pols p) by (try exact Ep; lia). reflexivity.
    + intros q I. apply in_seq in I. destruct (A q) as [Eq|(a & M & Sa)]; [lia| |].
      * right. rewrite (read_missing dir obs_id pols q) by (try exact Eq; lia). reflexivity.
      * left. rewrite (read_file dir obs_id pols q a) by (try exact M; lia). cbn [bind].
        replace (nd_shape (transpose a0)) with (nd_shape (transpose a))
          by (cbn [transpose nd_shape]; rewrite Sa, S0; reflexivity).
        destruct (fill_same (transpose a)) as (b & E & _). exists b. exact E.
Qed.
Print Assumptions C89_missing.

(** A file with another number of visibilities than the first one is refused, unless it has exactly one. *)
Theorem C89_shapes : forall (P D : Type) (dict_of : P -> result D) dir obs_id pols a params d nb nf nb',
  model_dir dir obs_id pols 2 a params -> dict_of params = Ok d ->
  nd_shape (a 0) = [nb; nf] -> nd_shape (a 1) = [nb'; nf] -> nb' <> nb -> nb' <> 1 ->
  import_sav dict_of dir obs_id pols 2 = Err ValueError.
Proof.
  intros P D dict_of dir obs_id pols a params d nb nf nb' (L & M & EP) ED S0 S1 N N1.
  unfold import_sav, readsav at 1, params_file. rewrite EP. cbn [bind]. rewrite ED. cbn [bind].
  rewrite (read_file dir obs_id pols 0 (a 0)) by (try apply M; lia). cbn [bind Nat.eqb Nat.sub seq map_res].
  rewrite (read_file dir obs_id pols 1 (a 1)) by (try apply M; lia). cbn [bind].
  unfold nd_fill. cbn [transpose nd_shape]. rewrite S0, S1. cbn [rev app fits].
  rewrite (proj2 (Nat.eqb_neq _ _) N), (proj2 (Nat.eqb_neq _ _) N1). reflexivity.
Qed.
Print Assumptions C89_shapes.

(** Files with other names do not matter. *)
Theorem C89_only : forall (P D : Type) (dict_of : P -> result D) dir dir' obs_id pols n,
  n <= List.length pols -> 0 < n ->
  s_params dir' (obs_id ++ "_params.sav")%string = s_params dir (obs_id ++ "_params.sav")%string ->
  (forall p, p < n -> let name := (obs_id ++ "_vis_model_" ++ nth p pols "" ++ ".sav")%string in
     s_vis dir' name = s_vis dir name) ->
  import_sav dict_of dir' obs_id pols n = import_sav dict_of dir obs_id pols n.
Proof.
  intros P D dict_of dir dir' obs_id pols n L N EP EV.
  assert (R : forall p, p < n -> read_pol dir' obs_id pols p = read_pol dir obs_id pols p).
  { intros p Lp. unfold read_pol. rewrite nth_res_ok by lia. cbn [bind]. unfold readsav, file_of. now rewrite (EV p Lp). }
  unfold import_sav. unfold readsav at 1 2, params_file. rewrite EP, (R 0 N).
  destruct (s_params dir _) as [params|]; cbn [bind]; [|reflexivity].
  destruct (dict_of params) as [d|e]; cbn [bind]; [|reflexivity].
  destruct (read_pol dir obs_id pols 0) as [first|e]; cbn [bind]; [|reflexivity].
  destruct (n =? 0); [reflexivity|]. f_equal. apply map_res_same. intros p I. apply in_seq in I. rewrite R by lia. reflexivity.
Qed.
Print Assumptions C89_only.

(** A uvfits file: a number of channels other than that of the observation ends the program; otherwise the visibilities
    are those of the file, the parameters those of its records. *)
Theorem C89_uvfits : forall file data site config_pol n_freq h nb k np nc at_,
  extract_header file site = Ok h -> data = NdArr (nb :: repeat 1 k ++ [h_freqs h; np; nc]) at_ ->
  nb <> 1 -> h_freqs h <> 1 -> np <> 1 -> 3 <= nc ->
  let n_pol := if config_pol =? 0 then h_pols h else config_pol in
  n_pol <= np ->
  match create_params file h with
  | Ok params => if Nat.eq_dec (h_freqs h) n_freq then
        exists vis, import_uvfits file data site config_pol n_freq = Ok (vis, params)
          /\ (d_pol vis, d_freq vis, d_bl vis) = (n_pol, n_freq, nb)
          /\ forall p f b, p < n_pol -> f < n_freq -> b < nb ->
               at3 vis p f b = mkC (Q2Qc (at_ (b :: repeat 0 k ++ [f; p; 0]))) (Q2Qc (at_ (b :: repeat 0 k ++ [f; p; 1])))
      else import_uvfits file data site config_pol n_freq = Err SystemExit
  | Err e => if Nat.eq_dec (h_freqs h) n_freq then import_uvfits file data site config_pol n_freq = Err e
             else import_uvfits file data site config_pol n_freq = Err SystemExit
  end.
Proof.
  intros file data site cp n_freq h nb k np nc at_ EH -> Nb Nf Np Nc n_pol Ln.
  unfold import_uvfits. rewrite EH. cbn [bind].
  destruct (C46_layout_partial nb k (h_freqs h) np nc (h_pols h) cp 0 1 2 at_) as (vis & w & E & Dm & _ & V);
    [exact Nb|exact Nf|exact Np|lia|lia|lia|lia|exact Ln|].
  destruct (Nat.eq_dec (h_freqs h) n_freq) as [EQ|NE]; [subst n_freq|].
  - rewrite Nat.eqb_refl. cbn [negb]. destruct (create_params file h) as [params|e]; cbn [bind]; [|reflexivity].
    rewrite E. cbn [bind]. exists vis. split; [reflexivity|]. split; [exact Dm|].
    intros p f b Lp Lf Lb. apply (V p f b Lp Lf Lb).
  - rewrite (proj2 (Nat.eqb_neq _ _) NE). cbn [negb]. destruct (create_params file h); reflexivity.
Qed.
Print Assumptions C89_uvfits.

(** The type of the file decides which of the two is done; any other type ends the program. *)
Theorem C89_type : forall (P D : Type) (dict_of : P -> result D) file_type dir obs_id pols n file data site cp n_freq,
  let run := vis_model_transfer dict_of file_type dir obs_id pols n file data site cp n_freq in
  (file_type = "sav"%string -> run = ('(v, p) <- import_sav dict_of dir obs_id pols n ;; Ok (FromSav v p)))
  /\ (file_type = "uvfits"%string -> run = ('(v, p) <- import_uvfits file data site cp n_freq ;; Ok (FromUvfits v p)))
  /\ (file_type <> "sav"%string -> file_type <> "uvfits"%string -> run = Err SystemExit).
Proof.
  intros P D dict_of ft dir obs_id pols n file data site cp n_freq run. unfold run, vis_model_transfer.
  split; [intros ->; reflexivity|]. split; [intros ->; reflexivity|].
  intros N1 N2. apply String.eqb_neq in N1, N2. now rewrite N1, N2.
Qed.
Print Assumptions C89_type.

(** C90: a model that does not fit the observation is not always noticed. A polarisation whose file holds one
    visibility per channel is taken to have this visibility on all baselines at all times. *)
Theorem C90_repeated_refuted : forall (P D : Type) (dict_of : P -> result D) dir obs_id pols a params d nb nf,
  model_dir dir obs_id pols 2 a params -> dict_of params = Ok d ->
  nd_shape (a 0) = [nb; nf] -> nd_shape (a 1) = [1; nf] ->
  exists v, import_sav dict_of dir obs_id pols 2 = Ok (v, d) /\ nd_shape v = [2; nf; nb]
    /\ forall f b, f < nf -> b < nb -> nd_at v [1; f; b] = nd_at (a 1) [0; f].
Proof.
  intros P D dict_of dir obs_id pols a params d nb nf (L & M & EP) ED S0 S1.
  unfold import_sav, readsav at 1, params_file. rewrite EP. cbn [bind]. rewrite ED. cbn [bind].
  rewrite (read_file dir obs_id pols 0 (a 0)) by (try apply M; lia). cbn [bind Nat.eqb Nat.sub seq map_res].
  rewrite (read_file dir obs_id pols 1 (a 1)) by (try apply M; lia). cbn [bind].
  unfold nd_fill. cbn [transpose nd_shape]. rewrite S0, S1. cbn [rev app fits].
  rewrite Bool.orb_true_r, Nat.eqb_refl. cbn [orb andb bind].
  eexists. split; [reflexivity|]. cbn [nd_shape]. split; [reflexivity|].
  intros f b Lf Lb. cbn [nd_at nth rev app spread Nat.eqb transpose].
  destruct (Nat.eqb_spec nf 1) as [->|]; [|reflexivity]. replace f with 0 by lia. reflexivity.
Qed.
Print Assumptions C90_repeated_refuted.

(** A sav file with another number of channels than the observation is accepted. *)
Theorem C90_channels_refuted : forall (P D : Type) (dict_of : P -> result D) dir obs_id pols n a params d nb nf
    file data site cp n_freq,
  0 < n -> model_dir dir obs_id pols n a params -> dict_of params = Ok d ->
  (forall p, p < n -> nd_shape (a p) = [nb; nf]) -> nf <> n_freq ->
  exists v, vis_model_transfer dict_of "sav" dir obs_id pols n file data site cp n_freq = Ok (FromSav v d)
    /\ nd_shape v = [n; nf; nb].
Proof.
  intros P D dict_of dir obs_id pols n a params d nb nf file data site cp n_freq N M ED S _.
  destruct (C89_sav P D dict_of dir obs_id pols n a params d _ N M ED S) as (v & E & Sv & _).
  exists v. unfold vis_model_transfer. change ("sav" =? "sav")%string with true. cbv iota. rewrite E. split; [reflexivity|exact Sv].
Qed.
Print Assumptions C90_channels_refuted.

(** An array with one channel and one visibility that is not packed loses an axis. *)
Theorem C90_single_refuted : forall (P D : Type) (dict_of : P -> result D) dir obs_id pol params d at_,
  s_params dir (obs_id ++ "_params.sav")%string = Some params -> dict_of params = Ok d ->
  s_vis dir (obs_id ++ "_vis_model_" ++ pol ++ ".sav")%string = Some (Some (Direct (NdArr [1; 1] at_))) ->
  exists v, import_sav dict_of dir obs_id [pol] 1 = Ok (v, d) /\ nd_shape v = [1; 1] /\ nd_at v [0; 0] = at_ [0; 0].
Proof.
  intros P D dict_of dir obs_id pol params d at_ EP ED EV.
  unfold import_sav, readsav at 1, params_file. rewrite EP. cbn [bind]. rewrite ED. cbn [bind].
  unfold read_pol. cbn [nth_res nth_error bind]. unfold readsav, file_of. cbn [nth_res nth_error]. rewrite EV.
  cbn [bind unpack]. eexists. split; [reflexivity|]. split; reflexivity.
Qed.
Print Assumptions C90_single_refuted.

(** With the number of polarisations left to the file, a uvfits model may have another number than the observation. *)
Theorem C90_polarisations_refuted : forall (P D : Type) (dict_of : P -> result D) dir obs_id pols n file site n_freq h params nb k np nc at_,
  extract_header file site = Ok h -> create_params file h = Ok params ->
  nb <> 1 -> h_freqs h <> 1 -> np <> 1 -> 3 <= nc -> h_freqs h = n_freq -> h_pols h <= np -> h_pols h <> n ->
  exists vis, vis_model_transfer dict_of "uvfits" dir obs_id pols n file
                (NdArr (nb :: repeat 1 k ++ [h_freqs h; np; nc]) at_) site 0 n_freq = Ok (FromUvfits vis params)
    /\ d_pol vis <> n.
Proof.
  intros P D dict_of dir obs_id pols n file site n_freq h params nb k np nc at_ EH EP Nb Nf Np Nc EF Lp NP.
  pose proof (C89_uvfits file _ site 0 n_freq h nb k np nc at_ EH eq_refl Nb Nf Np Nc Lp) as H. rewrite EP in H.
  destruct (Nat.eq_dec (h_freqs h) n_freq) as [_|]; [|contradiction]. destruct H as (vis & E & Dm & _).
  exists vis. unfold vis_model_transfer. change ("uvfits" =? "sav")%string with false.
  change ("uvfits" =? "uvfits")%string with true. cbv iota. rewrite E. split; [reflexivity|]. cbn [Nat.eqb] in Dm. congruence.
Qed.
Print Assumptions C90_polarisations_refuted.

(** The frequencies of a uvfits model are not looked at, only their number: whatever CRVAL4, CDELT4 and CRPIX4 are, the
    result is the same. *)
Theorem C90_frequencies_refuted : forall f g data site cp n_freq,
  f_int g = f_int f -> f_dated g = f_dated f -> f_ptype g = f_ptype f -> f_pzero g = f_pzero f -> f_bzero g = f_bzero f ->
  f_column g = f_column f ->
  (forall k, ~ In k ["CRVAL4"; "CDELT4"; "CRPIX4"]%string -> f_num g k = f_num f k) ->
  (forall k, In k ["CRVAL4"; "CDELT4"; "CRPIX4"]%string -> f_num f k <> None /\ f_num g k <> None) ->
  import_uvfits g data site cp n_freq = import_uvfits f data site cp n_freq.
Proof.
  intros f g data site cp n_freq EI ED ET EZ EB EC EN EF.
  assert (H : match extract_header f site, extract_header g site with
              | Ok hf, Ok hg => h_freqs hg = h_freqs hf /\ h_pols hg = h_pols hf /\ h_params hg = h_params hf
                                /\ h_ant1 hg = h_ant1 hf /\ h_ant2 hg = h_ant2 hf
              | Err e, Err e' => e' = e
              | _, _ => False
              end).
  { unfold extract_header, ptypes, card_or. rewrite EI, ED, ET, EZ, EB, EC.
    unfold card.
    rewrite (EN "OBSRA"%string), (EN "RA"%string), (EN "OBSDEC"%string), (EN "DEC"%string), (EN "LON"%string),
      (EN "LAT"%string), (EN "ALT"%string) by (cbn; intuition discriminate).
    destruct (EF "CRVAL4"%string) as [V V']; [cbn; auto|]. destruct (EF "CDELT4"%string) as [W W']; [cbn; auto|].
    destruct (EF "CRPIX4"%string) as [X X']; [cbn; auto|].
    destruct (f_num f "CRVAL4") as [v|]; [|congruence]. destruct (f_num g "CRVAL4") as [v'|]; [|congruence].
    destruct (f_num f "CDELT4") as [w|]; [|congruence]. destruct (f_num g "CDELT4") as [w'|]; [|congruence].
    destruct (f_num f "CRPIX4") as [x|]; [|congruence]. destruct (f_num g "CRPIX4") as [x'|]; [|congruence].
    repeat match goal with
    | |- context [bind ?e _] => lazymatch e with Ok _ => cbn [bind] | Err _ => cbn [bind] | _ => destruct e; cbn [bind]; [|reflexivity] end
    | |- context [if negb (f_dated f) then _ else _] => destruct (negb (f_dated f)); [reflexivity|]
    end.
    destruct a7 as [[lon lat] alt].
    destruct (map_res _ (seq 0 a0)) as [params|]; cbn [bind]; [|reflexivity].
    destruct (if negb (has "ANTENNA1" params) || negb (has "ANTENNA2" params) then _ else _) as [[bi va]|]; cbn [bind];
      [|reflexivity].
    destruct (index_of "DATE" params) as [di|]; cbn [bind]; [|reflexivity].
    destruct (negb (va && negb (di =? 0))); [reflexivity|].
    destruct (f_pzero f di) as [z|]; cbn [bind]; [|reflexivity].
    destruct (if 1 <? count "DATE" params then _ else _) as [jd|]; cbn [bind]; [|reflexivity].
    cbn [h_freqs h_pols h_params h_ant1 h_ant2]. auto. }
  unfold import_uvfits.
  destruct (extract_header f site) as [hf|e], (extract_header g site) as [hg|e']; cbn [bind]; try contradiction;
    [|congruence].
  destruct H as (E1 & E2 & E3 & E4 & E5). rewrite E1, E2. destruct (negb (h_freqs hf =? n_freq)); [reflexivity|].
  assert (EP : create_params g hg = create_params f hf).
  { unfold create_params, column_of, first_column. rewrite E3, E4, E5, ET, EC. reflexivity. }
  rewrite EP. reflexivity.
Qed.
Print Assumptions C90_frequencies_refuted.

(** The hypotheses are met: two polarisations, one packed, with two baselines and three channels; and a second
    polarisation with one visibility only. *)
Definition demo_array (k nb : nat) : ndarr C :=
  NdArr [nb; 3] (fun idx => match idx with [b; f] => mkC (Q2Qc (inject_Z (Z.of_nat (100 * k + 10 * b + f)))) 0%Qc | _ => mkC 0%Qc 0%Qc end).
Definition demo_dir (nb' : nat) : savdir nat := {|
  s_params := fun name => if String.eqb name "7_params.sav" then Some 5 else None;
  s_vis := fun name => if String.eqb name "7_vis_model_XX.sav" then Some (Some (Packed (demo_array 1 2)))
                       else if String.eqb name "7_vis_model_YY.sav" then Some (Some (Direct (demo_array 2 nb'))) else None |}.
Definition demo_models (nb' p : nat) : ndarr C := if p =? 0 then demo_array 1 2 else demo_array 2 nb'.
Lemma demo_meets nb' : nb' <> 0 -> model_dir (demo_dir nb') "7" ["XX"; "YY"]%string 2 (demo_models nb') 5.
Proof.
  intros N. split; [cbn; lia|]. split; [|reflexivity].
  intros [|[|p]] L; [left; reflexivity| |lia]. right. split; [reflexivity|].
  change (nb' * 3 <> 1). lia.
Qed.
Example C89_demo :
  (exists v, import_sav (fun p : nat => Ok p) (demo_dir 2) "7" ["XX"; "YY"]%string 2 = Ok (v, 5)
     /\ nd_shape v = [2; 3; 2] /\ nd_at v [1; 2; 1] = mkC (Q2Qc (inject_Z 212)) 0%Qc)
  /\ (exists v, import_sav (fun p : nat => Ok p) (demo_dir 1) "7" ["XX"; "YY"]%string 2 = Ok (v, 5)
        /\ nd_at v [1; 2; 1] = mkC (Q2Qc (inject_Z 202)) 0%Qc)
  /\ import_sav (fun p : nat => Ok p) (demo_dir 3) "7" ["XX"; "YY"]%string 2 = Err ValueError
  /\ import_sav (fun p : nat => Ok p) (demo_dir 2) "7" ["XX"; "XY"]%string 2 = Err SystemExit.
Proof.
  split; [|split; [|split; reflexivity]].
  - destruct (C89_sav _ _ (fun p : nat => Ok p) (demo_dir 2) "7"%string ["XX"; "YY"]%string 2 (demo_models 2) 5 5 [2; 3])
      as (v & E & S & V); [lia|apply demo_meets; lia|reflexivity|intros [|[|p]] L; [reflexivity|reflexivity|lia]|].
    exists v. split; [exact E|]. split; [exact S|]. apply (V 1 [1; 2]); [lia|]. repeat constructor.
  - destruct (C90_repeated_refuted _ _ (fun p : nat => Ok p) (demo_dir 1) "7"%string ["XX"; "YY"]%string (demo_models 1) 5 5 2 3)
      as (v & E & S & V); [apply demo_meets; lia|reflexivity|reflexivity|reflexivity|].
    exists v. split; [exact E|]. apply (V 2 1); lia.
Qed.
(** A uvfits model (the file of C71_demo): read for an observation of three channels, refused for one of four. *)
Definition demo_data : ndarr Q := NdArr [2; 1; 1; 3; 2; 3] (fun idx => inject_Z (Z.of_nat (fold_left (fun a i => 10 * a + i) idx 0))).
Example C89_uvfits_demo : exists vis params,
  import_uvfits UvHeaderProps.demo_file demo_data (Some (116, -27, 378)%Q) 0 3 = Ok (vis, params)
  /\ (d_pol vis, d_freq vis, d_bl vis) = (2, 3, 2)
  /\ at3 vis 1 2 1 = mkC (Q2Qc (inject_Z 100210)) (Q2Qc (inject_Z 100211))
  /\ import_uvfits UvHeaderProps.demo_file demo_data (Some (116, -27, 378)%Q) 0 4 = Err SystemExit.
Proof. do 2 eexists. split; [reflexivity|]. repeat split. Qed.
