From Coq Require Import ZifyBool ZifyNat.
From Verif Require Import Base SortLib NpArr PyIndex Cplx CalApply VisWeights AutoProofs CalFlag CalFlagSpec CalFlagProofs
  Bandpass BandpassSpec.
Open Scope nat_scope.
Ltac Zify.zify_post_hook ::= idtac.

Lemma mem_In k l : mem k l = true <-> In k l.
Proof. unfold mem. rewrite existsb_exists. split; [intros (x & Hx & E); apply Nat.eqb_eq in E; congruence|].
  intros H. exists k. split; auto. apply Nat.eqb_refl. Qed.
Lemma mem_false k l : mem k l = false <-> ~ In k l.
Proof. rewrite <- mem_In. destruct (mem k l); split; congruence. Qed.

Lemma nonzero_used l k : In k (nonzero l) <-> used l k.
Proof.
  rewrite (proj1 (nonzero_in_use l)). unfold used. split; [tauto|]. intros H. split; auto.
  destruct (Nat.lt_ge_cases k (length l)); auto. rewrite nth_overflow in H by auto. congruence.
Qed.

Lemma single_value cabs avg gain freqs tiles p f :
  bandpass_single cabs avg gain freqs tiles p f = bandpass_value cabs avg gain freqs tiles p f.
Proof.
  unfold bandpass_single, bandpass_value. f_equal. apply map_ext. intros t. unfold norm_amp, tile_mean.
  destruct (avg _) as [m|]; auto. destruct (Qc_eq_dec m 0) as [->|].
  - destruct (at3 gain p f t) as [g|]; auto. f_equal. unfold Qcdiv. replace (/ 0)%Qc with 0%Qc by reflexivity. ring.
  - destruct (at3 gain p f t); reflexivity.
Qed.

(** ** Cable groups *)
Definition grp (tile_use cable : list Z) (c : Z) : list nat :=
  filter (fun t => negb (nth t tile_use 0 =? 0)%Z && (nth t cable 0 =? c)%Z) (seq 0 (length tile_use)).

Lemma grp_In tu cl c t : In t (grp tu cl c) <-> used tu t /\ nth t cl 0%Z = c.
Proof.
  unfold grp, used. rewrite filter_In, in_seq. split.
  - intros [_ H]. lia.
  - intros [H <-]. assert (t < length tu).
    { destruct (Nat.lt_ge_cases t (length tu)); auto. rewrite nth_overflow in H by auto. congruence. }
    split; [lia|]. rewrite Z.eqb_refl, andb_true_r. lia.
Qed.

Lemma empty_spec tu cl : existsb (fun g => length g =? 0) (groups tu cl) = true <-> empty_group tu cl.
Proof.
  unfold groups. rewrite existsb_exists. split.
  - intros (g & Hg & E). apply in_map_iff in Hg as (c & <- & Hc). apply (proj1 (np_unique_In _ _)) in Hc. exists c. split; auto.
    intros t Ht Ec. apply Nat.eqb_eq in E. apply length_zero_iff_nil in E. fold (grp tu cl c) in E.
    assert (X : In t (grp tu cl c)) by (apply grp_In; auto). rewrite E in X. destruct X.
  - intros (c & Hc & H). exists (grp tu cl c). split; [apply in_map_iff; exists c; split; auto; now apply np_unique_In|].
    apply Nat.eqb_eq. apply length_zero_iff_nil. destruct (grp tu cl c) as [|t l] eqn:E; auto. exfalso.
    assert (X : In t (grp tu cl c)) by (rewrite E; now left). apply grp_In in X as [X1 X2]. now apply (H t).
Qed.

(** What the loop over the groups leaves in gain2. *)
Definition write (cabs : C -> Qc) (avg : list (option Qc) -> option Qc) (gain : arr3 (option C)) (freqs : list nat) (global : bool) (tiles : list nat) (g2 : nat -> nat -> nat -> option Qc) (g : list nat)
  : nat -> nat -> nat -> option Qc :=
  let ts := if global then tiles else g in
  fun p f t => if mem f freqs && mem t ts then bandpass_single cabs avg gain freqs ts p f else g2 p f t.

Lemma write_none cabs avg gain freqs (global : bool) (tiles : list nat) (gs : list (list nat)) p f t : forall g2,
  (forall g, In g gs -> mem f freqs && mem t (if global then tiles else g) = false) ->
  fold_left (write cabs avg gain freqs global tiles) gs g2 p f t = g2 p f t.
Proof.
  induction gs as [|g gs IH]; intros g2 H; auto. cbn [fold_left]. rewrite IH by (intros; apply H; now right).
  unfold write. rewrite (H g (or_introl eq_refl)). reflexivity.
Qed.

Lemma write_group cabs avg gain freqs (global : bool) (tiles : list nat) (gs : list (list nat)) p f t (g : list nat) : In f freqs ->
  (forall h, In h gs -> In t (if global then tiles else h) -> (if global then tiles else h) = g) ->
  (exists h, In h gs /\ In t (if global then tiles else h)) -> forall g2,
  fold_left (write cabs avg gain freqs global tiles) gs g2 p f t = bandpass_single cabs avg gain freqs g p f.
Proof.
  intros Hf. induction gs as [|h gs IH]; intros U X g2; [destruct X as (h & [] & _)|].
  cbn [fold_left].
  destruct (existsb (fun h => mem t (if global then tiles else h)) gs) eqn:E.
  - apply existsb_exists in E as (h' & H1 & H2). apply mem_In in H2. apply IH; [intros; apply U; auto; now right|eauto].
  - rewrite write_none.
    + destruct X as (h' & [->|H'] & Ht).
      * unfold write. rewrite (proj2 (mem_In _ _) Hf), (proj2 (mem_In _ _) Ht). cbn [andb].
        rewrite (U h' (or_introl eq_refl) Ht). reflexivity.
      * apply mem_In in Ht. assert (existsb (fun h => mem t (if global then tiles else h)) gs = true); [|congruence].
        apply existsb_exists. eauto.
    + intros g0 H0. destruct (mem t (if global then tiles else g0)) eqn:M; [|apply andb_false_r].
      assert (existsb (fun h => mem t (if global then tiles else h)) gs = true); [|congruence].
      apply existsb_exists. eauto.
Qed.

Definition cable_group (tu cl : list Z) (auto_ratio : bool) (t : nat) : list nat :=
  if existsb (fun g => length g =? 0) (groups tu cl) || auto_ratio then nonzero tu else grp tu cl (nth t cl 0%Z).

Lemma cable_gain2 cabs avg gain freqs tu cl ar p f t : length tu = length cl ->
  let global := existsb (fun g => length g =? 0) (groups tu cl) || ar in
  fold_left (write cabs avg gain freqs global (nonzero tu)) (groups tu cl) (fun _ _ _ => Some 0%Qc) p f t
  = if mem f freqs && mem t (nonzero tu) then bandpass_single cabs avg gain freqs (cable_group tu cl ar t) p f
    else Some 0%Qc.
Proof.
  intros L. cbv zeta. destruct (mem f freqs && mem t (nonzero tu)) eqn:E.
  - apply andb_true_iff in E as [Ef Et]. apply mem_In in Ef, Et. pose proof (proj1 (nonzero_used _ _) Et) as Ut.
    assert (Hc : In (nth t cl 0%Z) cl).
    { apply nth_In. rewrite <- L. now apply (proj1 (nonzero_in_use tu)) in Et. }
    apply write_group; auto.
    + intros h Hh Ht. unfold cable_group. destruct (_ || _); auto.
      unfold groups in Hh. apply in_map_iff in Hh as (c & <- & _). fold (grp tu cl c) in *.
      apply grp_In in Ht as [_ <-]. reflexivity.
    + exists (grp tu cl (nth t cl 0%Z)). split.
      * unfold groups. apply in_map_iff. exists (nth t cl 0%Z). split; auto. now apply np_unique_In.
      * destruct (_ || _); auto. apply grp_In. auto.
  - apply write_none. intros g Hg. destruct (mem f freqs); auto. cbn [andb] in *.
    destruct (_ || _); auto. unfold groups in Hg. apply in_map_iff in Hg as (c & <- & _). fold (grp tu cl c).
    apply mem_false. apply mem_false in E. intros X. apply E. apply grp_In in X as [X _]. now apply nonzero_used.
Qed.

Lemma cable_eq cabs avg gain freqs tu cl ar : length tu = length cl ->
  bandpass_cable cabs avg gain freqs tu cl ar =
  let gain2 := fold_left (write cabs avg gain freqs (existsb (fun g => length g =? 0) (groups tu cl) || ar) (nonzero tu))
                 (groups tu cl) (fun _ _ _ => Some 0%Qc) in
  Ok (Arr3 (d_pol gain) (d_freq gain) (d_bl gain) (fun p f t => option_map RtoC (gain2 p f t)),
      Arr3 (d_pol gain) (d_freq gain) (d_bl gain) (fun p f t =>
          if mem f freqs then over (at3 gain p f t) (gain2 p f t) else at3 gain p f t)).
Proof. intros L. unfold bandpass_cable. rewrite L, Nat.eqb_refl. reflexivity. Qed.

(** The two results, pixel by pixel. *)
Definition the_group (tu : list Z) (cable : option (list Z)) (ar : bool) (t : nat) : list nat :=
  match cable with None => nonzero tu | Some cl => cable_group tu cl ar t end.

Lemma group_of_the tu cable ar t : 
  match cable with Some cl => length tu = length cl | None => True end -> group_of tu cable ar t (the_group tu cable ar t).
Proof.
  intros L. unfold the_group, group_of, averaged_with. destruct cable as [cl|].
  - unfold cable_group. destruct (_ || _) eqn:E.
    + split; [apply nonzero_in_use|]. intros s. rewrite nonzero_used. split; [|tauto].
      intros U. split; auto. apply orb_true_iff in E as [E|E]; auto. apply empty_spec in E. auto.
    + split; [apply filter_sorted, seq_sorted|]. intros s. rewrite grp_In. split; [tauto|].
      intros [U X]. split; auto. apply orb_false_iff in E as [E1 E2].
      destruct X as [X|[X|X]]; auto; [congruence|]. apply empty_spec in X. congruence.
  - split; [apply nonzero_in_use|]. intros s. rewrite nonzero_used. tauto.
Qed.

Lemma group_unique tu cable ar t g g' : group_of tu cable ar t g -> group_of tu cable ar t g' -> g = g'.
Proof. intros [S1 H1] [S2 H2]. apply sorted_lt_ext; auto. intros x. now rewrite H1, H2. Qed.

Lemma bandpass_at cabs avg gain fu tu cable ar bp rem : d_pol gain <> 0 ->
  vis_cal_bandpass cabs avg gain fu tu cable ar = Ok (bp, rem) ->
  match cable with Some cl => length tu = length cl | None => True end
  /\ d_pol bp = d_pol gain /\ d_freq bp = d_freq gain /\ d_bl bp = d_bl gain
  /\ d_pol rem = d_pol gain /\ d_freq rem = d_freq gain /\ d_bl rem = d_bl gain
  /\ exists b : nat -> nat -> nat -> option Qc,
     (forall p f t, at3 bp p f t = option_map RtoC (b p f t))
     /\ (forall p f t, used fu f -> at3 rem p f t = over (at3 gain p f t) (b p f t))
     /\ (forall p f t, ~ used fu f -> b p f t = Some 0%Qc /\ at3 rem p f t = at3 gain p f t)
     /\ (forall p f t, used fu f -> used tu t \/ cable = None ->
           b p f t = bandpass_single cabs avg gain (nonzero fu) (the_group tu cable ar t) p f)
     /\ (forall p f t, used fu f -> ~ used tu t -> cable <> None -> b p f t = Some 0%Qc).
Proof.
  intros Np H. unfold vis_cal_bandpass in H. rewrite (proj2 (Nat.eqb_neq _ _) Np) in H.
  destruct (_ || _); [discriminate|]. destruct cable as [cl|].
  - destruct (Nat.eq_dec (length tu) (length cl)) as [L|L].
    2:{ unfold bandpass_cable in H. rewrite (proj2 (Nat.eqb_neq _ _) L) in H. discriminate. }
    rewrite cable_eq in H by auto. cbv zeta in H.
    pose proof (fun p f t => cable_gain2 cabs avg gain (nonzero fu) tu cl ar p f t L) as G. cbv zeta in G.
    set (b := fold_left _ _ _) in H. fold b in G. clearbody b. injection H as <- <-. cbn [d_pol d_freq d_bl at3].
    split; [exact L|]. do 6 (split; [reflexivity|]). exists b. split; [reflexivity|]. split; [|split; [|split]].
    + intros p f t U. now rewrite (proj2 (mem_In _ _) (proj2 (nonzero_used _ _) U)).
    + intros p f t U. rewrite G. replace (mem f (nonzero fu)) with false; [auto|].
      symmetry. apply mem_false. now rewrite nonzero_used.
    + intros p f t U [V|V]; [|discriminate]. rewrite G.
      now rewrite (proj2 (mem_In _ _) (proj2 (nonzero_used _ _) U)), (proj2 (mem_In _ _) (proj2 (nonzero_used _ _) V)).
    + intros p f t U V _. rewrite G. replace (mem t (nonzero tu)) with false; [now rewrite andb_false_r|].
      symmetry. apply mem_false. now rewrite nonzero_used.
  - unfold bandpass_global in H. injection H as <- <-. cbn [d_pol d_freq d_bl at3].
    split; [exact I|]. do 6 (split; [reflexivity|]).
    exists (fun p f t => if mem f (nonzero fu) then bandpass_single cabs avg gain (nonzero fu) (nonzero tu) p f else Some 0%Qc).
    split; [|split; [|split; [|split]]].
    + intros p f t. destruct (mem f (nonzero fu)); reflexivity.
    + intros p f t U. now rewrite (proj2 (mem_In _ _) (proj2 (nonzero_used _ _) U)).
    + intros p f t U. replace (mem f (nonzero fu)) with false; [auto|]. symmetry. apply mem_false. now rewrite nonzero_used.
    + intros p f t U _. now rewrite (proj2 (mem_In _ _) (proj2 (nonzero_used _ _) U)).
    + congruence.
Qed.
