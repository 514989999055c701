(** C71: the header and the parameters read from a UVFITS file. C41 (antenna columns). *)
From Coq Require Import String.
From Verif Require Import Base PyIndex Obs UvHeader UvHeaderSpec UvHeaderProofs.
Import ListNotations.
Open Scope nat_scope.
Open Scope list_scope.
Open Scope string_scope.

(** What an accepted header says: channel k of the FITS axis (counted from 1 there) is at CRVAL4 + (k + 1 - CRPIX4) CDELT4;
    the pointing is OBSRA/OBSDEC, else RA/DEC; the position of the telescope is the one of the file, else of the site. *)
Theorem C71_header : forall f lon lat alt h, extract_header f (Some (lon, lat, alt)) = Ok h ->
  (exists n crval cdelt crpix, f_int f "NAXIS4" = Some n /\ f_num f "CRVAL4" = Some crval /\ f_num f "CDELT4" = Some cdelt
     /\ f_num f "CRPIX4" = Some crpix /\ h_freqs h = n /\ List.length (h_freq h) = n
     /\ (forall k, k < n -> (nth k (h_freq h) 0 == crval + (inject_Z (Z.of_nat k + 1) - crpix) * cdelt)%Q))
  /\ f_int f "NAXIS3" = Some (h_pols h) /\ f_int f "NAXIS2" = Some (h_complex h) /\ f_int f "GCOUNT" = Some (h_baselines h)
  /\ given f "OBSRA" "RA" (h_ra h) /\ given f "OBSDEC" "DEC" (h_dec h)
  /\ h_lon h = (match f_num f "LON" with Some x => x | None => lon end)
  /\ h_lat h = (match f_num f "LAT" with Some x => x | None => lat end)
  /\ h_alt h = (match f_num f "ALT" with Some x => x | None => alt end).
Proof.
  intros f lon lat alt h H. unfold extract_header in H.
  assert (CI : forall k v, card (f_int f) k = Ok v -> f_int f k = Some v).
  { intros k v E. unfold card in E. destruct (f_int f k); [injection E as ->; reflexivity|discriminate E]. }
  assert (CN : forall k v, card (f_num f) k = Ok v -> f_num f k = Some v).
  { intros k v E. unfold card in E. destruct (f_num f k); [injection E as ->; reflexivity|discriminate E]. }
  apply bind_ok in H as (naxis & E1 & H). apply bind_ok in H as (npar & E2 & H). apply bind_ok in H as (nb & E3 & H).
  apply bind_ok in H as (nc & E4 & H). apply bind_ok in H as (np & E5 & H). apply bind_ok in H as (nf & E6 & H).
  apply bind_ok in H as (fr & E7 & H). apply bind_ok in H as (fs & E8 & H).
  destruct (negb (f_dated f)); [discriminate H|].
  apply bind_ok in H as (cp & E9 & H). apply bind_ok in H as (ra & E10 & H). apply bind_ok in H as (dec & E11 & H).
  cbn [bind] in H. apply bind_ok in H as (ps & E12 & H). apply bind_ok in H as ([bi va] & E13 & H).
  apply bind_ok in H as (di & E14 & H).
  match type of H with (if ?b then _ else _) = _ => destruct b; [discriminate H|] end.
  apply bind_ok in H as (pz & E15 & H). apply bind_ok in H as (jd & E16 & H). injection H as <-.
  cbn [h_freqs h_freq h_pols h_complex h_baselines h_ra h_dec h_lon h_lat h_alt].
  split; [|repeat split; auto using card_or_given].
  exists nf, fr, fs, cp. repeat split; auto.
  - rewrite map_length, seq_length. reflexivity.
  - intros k Hk. rewrite nth_indep with (d' := ((inject_Z (Z.of_nat 0) - (cp - 1)) * fs + fr)%Q) by (rewrite map_length, seq_length; exact Hk).
    rewrite map_nth with (f := fun k => ((inject_Z (Z.of_nat k) - (cp - 1)) * fs + fr)%Q). rewrite seq_nth by exact Hk. cbn [Nat.add].
    rewrite inject_Z_plus. ring.
Qed.
Print Assumptions C71_header.

(** A complete file is accepted, provided that DATE is not its first group parameter, nor BASELINE when that is needed. *)
Theorem C71_accepts_partial : forall f names site i z, described f -> parameters f names -> complete names ->
  first_at names "DATE" i -> f_pzero f i = Some z -> f_column f i <> [] ->
  nth 0 names "" <> "DATE" ->
  (nth 0 names "" <> "BASELINE" \/ In "ANTENNA1" names /\ In "ANTENNA2" names) ->
  exists h, extract_header f (Some site) = Ok h /\ h_date_i h = i.
Proof.
  intros f names site i z D P (U & V & W & DT & B) FI PZ NE N0 NB.
  pose proof (extract_rest f names site D P) as R.
  assert (E : exists bi jd, rest f names = Ok (bi, i, jd)).
  { unfold rest. apply has_iff in U, V, W. rewrite U, V, W. cbn [andb].
    assert (I0 : i <> 0) by (intros ->; apply N0; apply FI).
    assert (J : exists jd, (if (1 <? count "DATE" names)%nat then match f_column f i with [] => Err IndexError
                 | d :: _ => Ok (z + d - f_bzero f i)%Q end else Ok z) = Ok jd).
    { destruct (1 <? count "DATE" names)%nat; [|eexists; reflexivity]. destruct (f_column f i); [congruence|eexists; reflexivity]. }
    destruct J as [jd J].
    destruct (negb (has "ANTENNA1" names) || negb (has "ANTENNA2" names)) eqn:A.
    - assert (NA : ~ (In "ANTENNA1" names /\ In "ANTENNA2" names)).
      { intros [A1 A2]. apply has_iff in A1, A2. rewrite A1, A2 in A. discriminate A. }
      destruct NB as [NB|]; [|contradiction]. destruct B as [B|]; [|contradiction].
      destruct (first_exists _ _ B) as [b FB]. rewrite (proj2 (index_of_ok _ _ _) FB). cbn [bind].
      rewrite (proj2 (index_of_ok _ _ _) FI). cbn [bind].
      assert (B0 : b <> 0) by (intros ->; apply NB; apply FB).
      apply Nat.eqb_neq in I0, B0. rewrite I0, B0. cbn [negb andb]. rewrite PZ. cbn [bind]. rewrite J. cbn [bind].
      do 2 eexists; reflexivity.
    - cbn [bind]. rewrite (proj2 (index_of_ok _ _ _) FI). cbn [bind].
      apply Nat.eqb_neq in I0. rewrite I0. cbn [negb andb]. rewrite PZ. cbn [bind]. rewrite J. cbn [bind].
      do 2 eexists; reflexivity. }
  destruct E as (bi & jd & E). rewrite E in R. destruct R as (h & H1 & _ & H2 & _). exists h. split; assumption.
Qed.
Print Assumptions C71_accepts_partial.

(** A complete file whose first group parameter is DATE, or is BASELINE when that is needed, is rejected. *)
Theorem C71_first_refuted : forall f names site, described f -> parameters f names -> complete names ->
  (nth 0 names "" = "DATE" \/ nth 0 names "" = "BASELINE" /\ ~ (In "ANTENNA1" names /\ In "ANTENNA2" names)) ->
  extract_header f (Some site) = Err KeyError.
Proof.
  intros f names site D P (U & V & W & DT & B) H.
  pose proof (extract_rest f names site D P) as R.
  assert (NE : 0 < List.length names) by (destruct names; [destruct U|cbn; lia]).
  assert (F0 : forall nm, nth 0 names "" = nm -> first_at names nm 0) by (intros nm E; split; [exact NE|split; [exact E|intros; lia]]).
  assert (E : rest f names = Err KeyError).
  { unfold rest. apply has_iff in U, V, W. rewrite U, V, W. cbn [andb].
    destruct (first_exists _ _ DT) as [d FD]. rewrite (proj2 (index_of_ok _ _ _) FD).
    destruct (negb (has "ANTENNA1" names) || negb (has "ANTENNA2" names)) eqn:A.
    - assert (NA : ~ (In "ANTENNA1" names /\ In "ANTENNA2" names)).
      { intros [A1 A2]. apply has_iff in A1, A2. rewrite A1, A2 in A. discriminate A. }
      destruct B as [B|]; [|contradiction].
      destruct (first_exists _ _ B) as [b FB]. rewrite (proj2 (index_of_ok _ _ _) FB). cbn [bind].
      destruct H as [H|[H _]]; apply F0 in H; apply index_of_ok in H.
      + apply index_of_ok in FD. rewrite H in FD. injection FD as <-. cbn [Nat.eqb negb andb]. rewrite andb_false_r. reflexivity.
      + apply index_of_ok in FB. rewrite H in FB. injection FB as <-. reflexivity.
    - cbn [bind]. destruct H as [H|[_ H]].
      + apply F0 in H. apply index_of_ok in H, FD. rewrite H in FD. injection FD as <-. reflexivity.
      + contradict H. apply orb_false_iff in A as [A1 A2]. apply negb_false_iff in A1, A2. apply has_iff in A1, A2. split; assumption. }
  rewrite E in R. exact R.
Qed.
Print Assumptions C71_first_refuted.

(** A file without UU, VV or WW is rejected with the KeyError the documentation announces. *)
Theorem C71_missing : forall f names site, described f -> parameters f names ->
  ~ (In "UU" names /\ In "VV" names /\ In "WW" names) -> In "DATE" names -> In "BASELINE" names ->
  extract_header f (Some site) = Err KeyError.
Proof.
  intros f names site D P N DT B.
  pose proof (extract_rest f names site D P) as R.
  assert (V : has "UU" names && has "VV" names && has "WW" names = false).
  { destruct (has "UU" names) eqn:A1, (has "VV" names) eqn:A2, (has "WW" names) eqn:A3; try reflexivity.
    apply has_iff in A1, A2, A3. tauto. }
  assert (E : rest f names = Err KeyError).
  { unfold rest. rewrite V. destruct (first_exists _ _ DT) as [d FD]. rewrite (proj2 (index_of_ok _ _ _) FD).
    destruct (first_exists _ _ B) as [b FB]. rewrite (proj2 (index_of_ok _ _ _) FB).
    destruct (negb (has "ANTENNA1" names) || negb (has "ANTENNA2" names)); reflexivity. }
  rewrite E in R. exact R.
Qed.
Print Assumptions C71_missing.

(** One without DATE, or with neither BASELINE nor both antennas, is not: the error is a ValueError. *)
Theorem C71_missing_refuted : forall f names site, described f -> parameters f names ->
  ~ In "DATE" names \/ ~ In "BASELINE" names /\ ~ (In "ANTENNA1" names /\ In "ANTENNA2" names) ->
  extract_header f (Some site) = Err ValueError.
Proof.
  intros f names site D P H.
  pose proof (extract_rest f names site D P) as R.
  assert (E : rest f names = Err ValueError).
  { unfold rest. destruct H as [H|[H A]].
    - rewrite (index_of_none "DATE" names H).
      destruct (negb (has "ANTENNA1" names) || negb (has "ANTENNA2" names)); [|reflexivity].
      destruct (index_of "BASELINE" names) eqn:I; [reflexivity|].
      unfold index_of in I. destruct (find _ _); [discriminate I|]. injection I as <-. reflexivity.
    - rewrite (index_of_none "BASELINE" names H).
      destruct (has "ANTENNA1" names) eqn:A1, (has "ANTENNA2" names) eqn:A2; cbn [negb orb]; try reflexivity.
      apply has_iff in A1, A2. tauto. }
  rewrite E in R. exact R.
Qed.
Print Assumptions C71_missing_refuted.

(** An instrument astropy does not know is an error even when the file gives the position of the telescope; the default
    to the MWA written in the code never happens. *)
Theorem C71_site_refuted : forall f, described f -> f_int f "PCOUNT" <> None -> extract_header f None = Err TypeError.
Proof.
  intros f (DI & DN & DD & DR & DC) DP. unfold extract_header.
  destruct (card_some _ (f_int f) "NAXIS") as [v1 ->]; [apply DI; cbn; tauto|]. cbn [bind].
  destruct (card_some _ (f_int f) "PCOUNT") as [v0 ->]; [exact DP|]. cbn [bind].
  destruct (card_some _ (f_int f) "GCOUNT") as [v2 ->]; [apply DI; cbn; tauto|]. cbn [bind].
  destruct (card_some _ (f_int f) "NAXIS2") as [v3 ->]; [apply DI; cbn; tauto|]. cbn [bind].
  destruct (card_some _ (f_int f) "NAXIS3") as [v4 ->]; [apply DI; cbn; tauto|]. cbn [bind].
  destruct (card_some _ (f_int f) "NAXIS4") as [v5 ->]; [apply DI; cbn; tauto|]. cbn [bind].
  destruct (card_some _ (f_num f) "CRVAL4") as [v6 ->]; [apply DN; cbn; tauto|]. cbn [bind].
  destruct (card_some _ (f_num f) "CDELT4") as [v7 ->]; [apply DN; cbn; tauto|]. cbn [bind].
  rewrite DD. cbn [negb].
  destruct (card_some _ (f_num f) "CRPIX4") as [v8 ->]; [apply DN; cbn; tauto|]. cbn [bind].
  destruct (card_or_some _ (f_num f) "OBSRA" "RA" DR) as [v9 ->]. cbn [bind].
  destruct (card_or_some _ (f_num f) "OBSDEC" "DEC" DC) as [v10 ->]. reflexivity.
Qed.
Print Assumptions C71_site_refuted.

(** After an accepted header the parameters are the columns of that name (the first one, if there are several). *)
Lemma accepted : forall f names site h, parameters f names -> extract_header f site = Ok h ->
  h_params h = List.length names /\ h_ant1 h = has "ANTENNA1" names /\ h_ant2 h = has "ANTENNA2" names
  /\ In "UU" names /\ In "VV" names /\ In "WW" names /\ In "DATE" names
  /\ (In "BASELINE" names \/ In "ANTENNA1" names /\ In "ANTENNA2" names).
Proof.
  intros f names site h P H. unfold extract_header in H.
  apply bind_ok in H as (naxis & E1 & H). apply bind_ok in H as (npar & E2 & H). apply bind_ok in H as (nb & E3 & H).
  apply bind_ok in H as (nc & E4 & H). apply bind_ok in H as (np & E5 & H). apply bind_ok in H as (nf & E6 & H).
  apply bind_ok in H as (fr & E7 & H). apply bind_ok in H as (fs & E8 & H).
  destruct (negb (f_dated f)); [discriminate H|].
  apply bind_ok in H as (cp & E9 & H). apply bind_ok in H as (ra & E10 & H). apply bind_ok in H as (dec & E11 & H).
  apply bind_ok in H as ([[lo la] al] & _ & H).
  assert (npar = List.length names) as ->.
  { unfold card in E2. rewrite (proj1 P) in E2. injection E2 as <-. reflexivity. }
  rewrite (ptypes_ok f names P) in H. cbn [bind] in H.
  apply bind_ok in H as ([bi va] & E13 & H).
  apply bind_ok in H as (di & E14 & H).
  match type of H with (if ?b then _ else _) = _ => destruct b eqn:VA; [discriminate H|] end.
  apply bind_ok in H as (pz & E15 & H). apply bind_ok in H as (jd & E16 & H). injection H as <-.
  cbn [h_params h_ant1 h_ant2]. do 3 (split; [reflexivity|]).
  apply negb_false_iff, andb_true_iff in VA as [VA _].
  apply index_of_ok, first_in in E14.
  destruct (negb (has "ANTENNA1" names) || negb (has "ANTENNA2" names)) eqn:A.
  - apply bind_ok in E13 as (b & IB & E13). injection E13 as <- <-. apply andb_true_iff in VA as [VA _].
    apply andb_true_iff in VA as [VA W]. apply andb_true_iff in VA as [U V]. apply has_iff in U, V, W.
    apply index_of_ok, first_in in IB. tauto.
  - injection E13 as <- <-. apply andb_true_iff in VA as [VA W]. apply andb_true_iff in VA as [U V]. apply has_iff in U, V, W.
    apply orb_false_iff in A as [A1 A2]. apply negb_false_iff in A1, A2. apply has_iff in A1, A2. tauto.
Qed.
Lemma created : forall f names site h p, parameters f names -> extract_header f site = Ok h -> create_params f h = Ok p ->
  forall iu iv iw id, first_at names "UU" iu -> first_at names "VV" iv -> first_at names "WW" iw -> first_at names "DATE" id ->
  p_uu p = f_column f iu /\ p_vv p = f_column f iv /\ p_ww p = f_column f iw /\ p_time p = f_column f id.
Proof.
  intros f names site h p P H C iu iv iw id FU FV FW FD. destruct (accepted _ _ _ _ P H) as (N & _ & _ & _).
  unfold create_params, column_of in C. rewrite N in C.
  rewrite (first_column_at _ _ _ _ P FU), (first_column_at _ _ _ _ P FV), (first_column_at _ _ _ _ P FW), (first_column_at _ _ _ _ P FD) in C.
  cbn [bind] in C. apply bind_ok in C as ([a1 a2] & _ & C). injection C as <-. repeat split.
Qed.

(** With one DATE parameter, the coordinates and times are the columns of that name. *)
Theorem C71_params_partial : forall f names site h p, parameters f names -> extract_header f site = Ok h -> create_params f h = Ok p ->
  forall iu iv iw id, first_at names "UU" iu -> first_at names "VV" iv -> first_at names "WW" iw -> first_at names "DATE" id ->
  (forall j, j < List.length names -> nth j names "" = "DATE" -> j = id) ->
  p_uu p = f_column f iu /\ p_vv p = f_column f iv /\ p_ww p = f_column f iw
  /\ forall r, (nth r (p_time p) 0 == date_sum f names r)%Q.
Proof.
  intros f names site h p P H C iu iv iw id FU FV FW FD ONE.
  destruct (created _ _ _ _ _ P H C iu iv iw id FU FV FW FD) as (E1 & E2 & E3 & E4). do 3 (split; [assumption|]).
  intro r. rewrite E4. unfold date_sum.
  assert (F : filter (fun i => String.eqb (nth i names "") "DATE") (seq 0 (List.length names)) = [id]).
  { destruct FD as (L & E & _).
    assert (G : forall m s, s <= id < s + m -> (forall j, s <= j < s + m -> String.eqb (nth j names "") "DATE" = true -> j = id) ->
      filter (fun i => String.eqb (nth i names "") "DATE") (seq s m) = [id]).
    { intros m s HS HO. replace m with ((id - s) + S (m - S (id - s)))%nat by lia. rewrite seq_app, filter_app.
      cbn [seq filter]. replace (s + (id - s))%nat with id by lia. rewrite E. cbn [String.eqb].
      replace (String.eqb "DATE" "DATE") with true by (symmetry; apply String.eqb_refl).
      assert (Z : forall a b, s <= a -> a + b <= s + m -> (forall j, a <= j < a + b -> j <> id) ->
        filter (fun i => String.eqb (nth i names "") "DATE") (seq a b) = []).
      { intros a b La Lb N. revert a La Lb N. induction b; intros a La Lb N; [reflexivity|]. cbn [seq filter].
        destruct (String.eqb (nth a names "") "DATE") eqn:EA.
        - exfalso. apply (N a); [lia|]. apply HO; [lia|exact EA].
        - apply IHb; [lia|lia|]. intros j Hj. apply N; lia. }
      rewrite Z by (try lia; intros; lia). rewrite Z by (try lia; intros; lia). reflexivity. }
    apply G; [lia|]. intros j Hj EJ. apply ONE; [lia|]. apply String.eqb_eq; exact EJ. }
  rewrite F. cbn [map fold_right]. ring.
Qed.
Print Assumptions C71_params_partial.

(** Whatever the header says, a parameter that the file does not have ends the program instead of giving an empty
    column. *)
Lemma column_missing : forall f names name, parameters f names -> ~ In name names ->
  column_of f (List.length names) name = Err SystemExit.
Proof.
  intros f names name [_ P] N. unfold column_of, first_column.
  destruct (find _ _) as [i|] eqn:F; [|reflexivity]. exfalso. apply N. apply find_some in F as [I E]. apply in_seq in I.
  rewrite P in E by lia. apply String.eqb_eq in E. rewrite <- E. apply nth_In. lia.
Qed.
Lemma column_cases : forall f n name, (exists c, column_of f n name = Ok c) \/ column_of f n name = Err SystemExit.
Proof. intros f n name. unfold column_of. destruct (first_column f n name); eauto. Qed.
Theorem C71_params_missing : forall f names h, parameters f names -> h_params h = List.length names ->
  ~ (In "UU" names /\ In "VV" names /\ In "WW" names /\ In "DATE" names)
  \/ (if h_ant1 h && h_ant2 h then ~ (In "ANTENNA1" names /\ In "ANTENNA2" names) else ~ In "BASELINE" names) ->
  create_params f h = Err SystemExit.
Proof.
  intros f names h P N M. unfold create_params. rewrite N.
  assert (K : forall name, In name names \/ column_of f (List.length names) name = Err SystemExit).
  { intro name. destruct (in_dec string_dec name names) as [I|I]; [now left|right; now apply column_missing]. }
  destruct (K "UU") as [U|U]; [|now rewrite U]. destruct (column_cases f (List.length names) "UU") as [[uu ->]| ->]; [|reflexivity]. cbn [bind].
  destruct (K "VV") as [V|V]; [|now rewrite V]. destruct (column_cases f (List.length names) "VV") as [[vv ->]| ->]; [|reflexivity]. cbn [bind].
  destruct (K "WW") as [W|W]; [|now rewrite W]. destruct (column_cases f (List.length names) "WW") as [[ww ->]| ->]; [|reflexivity]. cbn [bind].
  destruct (K "DATE") as [D|D]; [|now rewrite D]. destruct (column_cases f (List.length names) "DATE") as [[dd ->]| ->]; [|reflexivity]. cbn [bind].
  destruct M as [M|M]; [tauto|]. destruct (h_ant1 h && h_ant2 h).
  - destruct (K "ANTENNA1") as [A|A]; [|now rewrite A]. destruct (column_cases f (List.length names) "ANTENNA1") as [[a1 ->]| ->]; [|reflexivity]. cbn [bind].
    destruct (K "ANTENNA2") as [B|B]; [tauto|]. now rewrite B.
  - rewrite (column_missing f names "BASELINE" P M). reflexivity.
Qed.
Print Assumptions C71_params_missing.

(** A date split into two DATE parameters loses the second: the times are the first column. *)
Theorem C71_time_refuted : forall f names site h p id id2 r, parameters f names -> extract_header f site = Ok h -> create_params f h = Ok p ->
  first_at names "DATE" id -> id < id2 -> id2 < List.length names -> nth id2 names "" = "DATE" ->
  (forall j, j < List.length names -> nth j names "" = "DATE" -> j = id \/ j = id2) ->
  ~ (nth r (f_column f id2) 0 == 0)%Q ->
  ~ (nth r (p_time p) 0 == date_sum f names r)%Q.
Proof.
  intros f names site h p id id2 r P H C FD L2 N2 E2 TWO NZ.
  destruct (accepted _ _ _ _ P H) as (_ & _ & _ & U & V & W & _).
  destruct (first_exists _ _ U) as [iu FU]. destruct (first_exists _ _ V) as [iv FV]. destruct (first_exists _ _ W) as [iw FW].
  destruct (created _ _ _ _ _ P H C iu iv iw id FU FV FW FD) as (_ & _ & _ & E4).
  assert (F : filter (fun i => String.eqb (nth i names "") "DATE") (seq 0 (List.length names)) = [id; id2]).
  { destruct FD as (L & E & _).
    assert (Z : forall a b, a + b <= List.length names -> (forall j, a <= j < a + b -> j <> id /\ j <> id2) ->
      filter (fun i => String.eqb (nth i names "") "DATE") (seq a b) = []).
    { intros a b. revert a. induction b; intros a Lb N; [reflexivity|]. cbn [seq filter].
      destruct (String.eqb (nth a names "") "DATE") eqn:EA.
      - exfalso. apply String.eqb_eq in EA. destruct (TWO a) as [X|X]; [lia|exact EA| |]; destruct (N a); lia.
      - apply IHb; [lia|]. intros j Hj. apply N; lia. }
    replace (List.length names) with (id + S ((id2 - id - 1) + S (List.length names - id2 - 1)))%nat by lia.
    rewrite seq_app, filter_app. cbn [seq filter]. rewrite Nat.add_0_l, E. rewrite String.eqb_refl.
    rewrite seq_app, filter_app. cbn [seq filter]. replace (S id + (id2 - id - 1))%nat with id2 by lia. rewrite E2, String.eqb_refl.
    rewrite !Z by (try lia; intros; lia). reflexivity. }
  intro EQ. apply NZ. unfold date_sum in EQ. rewrite F, E4 in EQ. cbn [map fold_right] in EQ.
  rewrite Qplus_0_r in EQ.
  assert (G : forall a b : Q, (a == a + b -> b == 0)%Q).
  { intros a b Hab. assert (X : (a + b - a == a - a)%Q) by (rewrite <- Hab; reflexivity). ring_simplify in X. exact X. }
  apply G in EQ. exact EQ.
Qed.
Print Assumptions C71_time_refuted.

(** C41. Antenna columns in the file are taken as they are, wherever they stand. *)
Theorem C41_columns : forall f names site h p i1 i2, parameters f names -> extract_header f site = Ok h -> create_params f h = Ok p ->
  first_at names "ANTENNA1" i1 -> first_at names "ANTENNA2" i2 ->
  p_antenna1 p = map Qfloor (f_column f i1) /\ p_antenna2 p = map Qfloor (f_column f i2).
Proof.
  intros f names site h p i1 i2 P H C F1 F2.
  destruct (accepted _ _ _ _ P H) as (N & A1 & A2 & _).
  unfold create_params in C. apply bind_ok in C as (uu & _ & C). apply bind_ok in C as (vv & _ & C).
  apply bind_ok in C as (ww & _ & C). apply bind_ok in C as (tt & _ & C).
  rewrite A1, A2 in C. pose proof (first_in _ _ _ F1) as I1. pose proof (first_in _ _ _ F2) as I2. apply has_iff in I1, I2. rewrite I1, I2 in C.
  cbn [andb] in C. unfold column_of in C. rewrite N, (first_column_at _ _ _ _ P F1), (first_column_at _ _ _ _ P F2) in C.
  cbn [bind] in C. injection C as <-. split; reflexivity.
Qed.
Print Assumptions C41_columns.

(** Otherwise they are decoded from BASELINE. *)
Theorem C41_baseline_column : forall f names site h p ib, parameters f names -> extract_header f site = Ok h -> create_params f h = Ok p ->
  ~ (In "ANTENNA1" names /\ In "ANTENNA2" names) -> first_at names "BASELINE" ib ->
  decode_baselines (map Qfloor (f_column f ib)) = Ok (p_antenna1 p, p_antenna2 p).
Proof.
  intros f names site h p ib P H C NA FB.
  destruct (accepted _ _ _ _ P H) as (N & A1 & A2 & _).
  unfold create_params in C. apply bind_ok in C as (uu & _ & C). apply bind_ok in C as (vv & _ & C).
  apply bind_ok in C as (ww & _ & C). apply bind_ok in C as (tt & _ & C).
  rewrite A1, A2 in C. assert (A : has "ANTENNA1" names && has "ANTENNA2" names = false).
  { destruct (has "ANTENNA1" names) eqn:X1, (has "ANTENNA2" names) eqn:X2; try reflexivity. apply has_iff in X1, X2. tauto. }
  rewrite A in C. unfold column_of in C. rewrite N, (first_column_at _ _ _ _ P FB) in C. cbn [bind] in C.
  apply bind_ok in C as ([a1 a2] & E & C). injection C as <-. exact E.
Qed.
Print Assumptions C41_baseline_column.

(** A file that meets the hypotheses: UU VV WW BASELINE DATE DATE, two visibilities, three channels. *)
Definition demo_names := ["UU"; "VV"; "WW"; "BASELINE"; "DATE"; "DATE"].
Definition demo_file : uvfile := {|
  f_int := fun k => if String.eqb k "PCOUNT" then Some 6 else if String.eqb k "NAXIS4" then Some 3 else Some 2;
  f_num := fun k => if String.eqb k "CRVAL4" then Some 182%Q else if String.eqb k "CDELT4" then Some (2#25)%Q
                    else if String.eqb k "CRPIX4" then Some 2%Q else if String.eqb k "OBSRA" then None
                    else if String.eqb k "LAT" then None else Some 10%Q;
  f_dated := true;
  f_ptype := fun i => nth_error demo_names i;
  f_pzero := fun i => Some (inject_Z (Z.of_nat i));
  f_bzero := fun _ => 0%Q;
  f_column := fun i => nth i [[1; 2]; [3; 4]; [5; 6]; [258; 259]; [7; 7]; [1#2; 3#4]]%Q [] |}.
Example C71_demo : described demo_file /\ parameters demo_file demo_names /\ complete demo_names
  /\ exists h p, extract_header demo_file (Some (116, -27, 378)%Q) = Ok h /\ create_params demo_file h = Ok p
     /\ map Qred (h_freq h) = [4548#25; 182; 4552#25]%Q /\ h_lat h = (-27)%Q /\ h_ra h = 10%Q
     /\ p_time p = [7; 7]%Q /\ (p_antenna1 p, p_antenna2 p) = ([1; 1], [2; 3])%Z.
Proof.
  split; [|split; [|split]].
  - split; [|split; [|split; [reflexivity|split; [right|left]; discriminate]]].
    + intros k H. cbn in H. repeat (destruct H as [<-|H]; [discriminate|]). destruct H.
    + intros k H. cbn in H. repeat (destruct H as [<-|H]; [discriminate|]). destruct H.
  - split; [reflexivity|]. intros i H. cbn in H. do 6 (destruct i as [|i]; [reflexivity|]). lia.
  - unfold complete, demo_names. cbn [In]. intuition reflexivity.
  - do 2 eexists. split; [reflexivity|]. split; [reflexivity|]. repeat split.
Qed.
