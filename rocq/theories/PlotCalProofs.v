From Coq Require Import String QArith.
From Verif Require Import Base PyIndex TransferBp ModelReadProofs PlotCal PlotCalSpec.
Import ListNotations.
Open Scope nat_scope.

Section Proofs.
  Context {G V : Type}.
  Variable gadd : G -> G -> G.
  Variable vabs varg : G -> V.
  Variable vsub : V -> V -> V.
  Variable unwrap : list V -> list V.
  Variable isnan isfinite : V -> bool.
  Variable nanmin nanmax : list V -> V.
  Variable full_turn : V * V.
  Variable show : nat -> string.
  Variable i : plot_input G.

  Notation spec_amp := (amplitude gadd vabs vsub i).
  Notation spec_phase := (phase gadd varg vsub unwrap i).
  Notation finite := (finite isfinite).
  Notation spec_lim := (amp_limits gadd vabs vsub i nanmin nanmax).
  Notation spec_plim := (phase_limits gadd varg vsub unwrap i nanmin nanmax full_turn).
  Notation ready := (ready unwrap i).
  Notation page_of := (page_of gadd vabs varg vsub unwrap isnan i nanmin nanmax full_turn).
  Definition model_amp (k : kind) : nat -> nat -> list V :=
    match k with Solution => sol_amp vabs i | Residual => res_amp gadd vabs vsub i | Raw => raw_amp gadd vabs i end.
  Definition model_phase (k : kind) : nat -> nat -> list V :=
    match k with Solution => sol_phase varg i | Residual => res_phase gadd varg vsub unwrap i | Raw => raw_phase gadd varg i end.

  Lemma channels : freq_i_use i = good_channels i.
  Proof.
    unfold freq_i_use, good_channels. rewrite (where_spec (fun b => b) (in_freq_use i) false). reflexivity.
  Qed.

  Lemma minus_map (f g : nat -> V) l : minus vsub (map f l) (map g l) = map (fun x => vsub (f x) (g x)) l.
  Proof. unfold minus. induction l as [|x l IH]; [reflexivity|]. cbn [map combine fst snd]. now rewrite IH. Qed.

  Lemma amp_same k p t : model_amp k p t = spec_amp k p t.
  Proof.
    destruct k; unfold model_amp, amplitude, along, gain_of, raw_of.
    - unfold sol_amp. now rewrite channels.
    - unfold res_amp, raw_amp, sol_amp. rewrite minus_map, channels. reflexivity.
    - unfold raw_amp. now rewrite channels.
  Qed.

  Lemma phase_same k p t : model_phase k p t = spec_phase k p t.
  Proof.
    destruct k; unfold model_phase, phase, along, gain_of, raw_of.
    - unfold sol_phase. now rewrite channels.
    - unfold res_phase, raw_phase, sol_phase, minus, differences. rewrite channels.
      apply map_ext. intros [x y]. reflexivity.
    - unfold raw_phase. now rewrite channels.
  Qed.

  Lemma in_use t : existsb (Nat.eqb t) (tile_i_use i) = nth t (in_tile_use i) false.
  Proof.
    apply Bool.eq_iff_eq_true. rewrite existsb_exists. unfold tile_i_use. split.
    - intros (x & I & E). apply Nat.eqb_eq in E. subst x.
      apply (In_where (fun b => b) (in_tile_use i) false) in I. apply I.
    - intros E. exists t. split; [|apply Nat.eqb_refl].
      apply (In_where (fun b => b) (in_tile_use i) false). split; [|exact E].
      destruct (Nat.lt_ge_cases t (List.length (in_tile_use i))) as [L|L]; [exact L|].
      rewrite nth_overflow in E by exact L. discriminate.
  Qed.

  Lemma blank_visible k p t :
    blank isnan i (model_amp k p t) (model_phase k p t) t = false <->
    visible gadd vabs varg vsub unwrap isnan i k p t.
  Proof.
    unfold blank, visible, undefined. rewrite amp_same, phase_same, in_use.
    rewrite Bool.orb_false_iff, Bool.negb_false_iff.
    split.
    - intros [N U]. split; [exact U|]. intros A.
      assert (T : forallb isnan (spec_amp k p t ++ spec_phase k p t) = true) by (apply forallb_forall; exact A).
      congruence.
    - intros [U N]. split; [|exact U].
      destruct (forallb isnan (spec_amp k p t ++ spec_phase k p t)) eqn:E; [|reflexivity].
      exfalso. apply N. apply forallb_forall. exact E.
  Qed.

  Lemma draw_lines k t l :
    In l (fst (draw isnan i (model_amp k) (model_phase k) t)) <->
    exists p, p < in_n_pol i /\ visible gadd vabs varg vsub unwrap isnan i k p t /\
      l = Line p (map (fun f => (in_freq i f / 1000000)%Q) (good_channels i)) (spec_amp k p t) (spec_phase k p t).
  Proof.
    unfold draw. cbn [fst]. rewrite in_flat_map. split.
    - intros (p & I & J). apply in_seq in I.
      destruct (blank isnan i (model_amp k p t) (model_phase k p t) t) eqn:B; [destruct J|].
      destruct J as [<-|[]]. exists p. split; [lia|]. split; [apply blank_visible; exact B|].
      unfold freq_arr_use. rewrite channels, amp_same, phase_same. reflexivity.
    - intros (p & L & Vp & ->). exists p. split; [apply in_seq; lia|].
      apply blank_visible in Vp. rewrite Vp. left.
      unfold freq_arr_use. rewrite channels, amp_same, phase_same. reflexivity.
  Qed.

  Lemma draw_once k t : NoDup (map ln_pol (fst (draw isnan i (model_amp k) (model_phase k) t))).
  Proof.
    unfold draw. cbn [fst].
    assert (Gen : forall l, NoDup l ->
      NoDup (map ln_pol (flat_map (fun p => if blank isnan i (model_amp k p t) (model_phase k p t) t then []
         else [Line p (freq_arr_use i) (model_amp k p t) (model_phase k p t)]) l)) /\
      forall x, In x (map ln_pol (flat_map (fun p => if blank isnan i (model_amp k p t) (model_phase k p t) t then []
         else [Line p (freq_arr_use i) (model_amp k p t) (model_phase k p t)]) l)) -> In x l).
    { induction l as [|p l IH]; intros N.
      - split; [constructor|intros x []].
      - inversion N as [|? ? N1 N2]; subst. destruct (IH N2) as [A B]. cbn [flat_map].
        destruct (blank isnan i (model_amp k p t) (model_phase k p t) t).
        + cbn [app]. split; [exact A|intros x I; right; auto].
        + cbn [app map ln_pol]. split.
          * constructor; [|exact A]. intros I. apply N1. apply B. exact I.
          * intros x [<-|I]; [left; reflexivity|right; auto]. }
    apply Gen. apply seq_NoDup.
  Qed.

  Lemma draw_axes k t :
    snd (draw isnan i (model_amp k) (model_phase k) t) = false <->
    forall p, p < in_n_pol i -> visible gadd vabs varg vsub unwrap isnan i k p t.
  Proof.
    unfold draw. cbn [snd]. split.
    - intros E p L. apply blank_visible.
      destruct (blank isnan i (model_amp k p t) (model_phase k p t) t) eqn:B; [|reflexivity].
      assert (T : existsb (fun p => blank isnan i (model_amp k p t) (model_phase k p t) t) (seq 0 (in_n_pol i)) = true).
      { apply existsb_exists. exists p. split; [apply in_seq; lia|exact B]. }
      congruence.
    - intros A. apply Bool.not_true_iff_false. intros E. apply existsb_exists in E as (p & I & B).
      apply in_seq in I. assert (L : p < in_n_pol i) by lia. apply A in L. apply blank_visible in L. congruence.
  Qed.

  (** A tile of the first page. *)
  Lemma tile_first k t : t < 128 -> t < List.length (in_tile_names i) ->
    exists pn, draw_tile isnan i (model_amp k) (model_phase k) 0 t = Ok pn /\
      shows_tile gadd vabs varg vsub unwrap isnan i k t pn.
  Proof.
    intros L Ln. unfold draw_tile. replace ((0 + 1) * t) with t by lia. replace (t - 0 * (n_cols * n_rows)) with t by lia.
    rewrite nth_res_ok by exact Ln. cbn [bind]. eexists. split; [reflexivity|].
    constructor; cbn [pn_row pn_col pn_title pn_lines pn_off].
    - unfold n_cols. split; [|split].
      + apply Nat.div_lt_upper_bound; lia.
      + apply Nat.mod_upper_bound. discriminate.
      + apply Nat.div_mod. discriminate.
    - apply nth_error_nth'. exact Ln.
    - intros l. apply draw_lines.
    - apply draw_once.
    - apply draw_axes.
  Qed.

  Lemma pages_one : 128 <= in_n_tile i -> in_n_tile i < 256 -> n_pages i = 1.
  Proof. intros A B. unfold n_pages. change (n_cols * n_rows) with 128. symmetry. apply (Nat.div_unique _ 128 1 (in_n_tile i - 128)); lia. Qed.

  Lemma full_page p : p < n_pages i -> page_tiles i p = 128.
  Proof.
    intros L. unfold page_tiles. destruct (in_n_tile i / (n_cols * n_rows * (p + 1)) =? 0) eqn:E; [|reflexivity].
    apply Nat.eqb_eq in E. apply Nat.div_small_iff in E; [|change (n_cols * n_rows) with 128; lia].
    unfold n_pages in L. change (n_cols * n_rows) with 128 in *.
    assert (128 * (in_n_tile i / 128) <= in_n_tile i) by (apply Nat.mul_div_le; discriminate). nia.
  Qed.

  Definition lim_of (k : kind) : V * V :=
    (nanmin (values i (model_amp k)), nanmax (values i (model_amp k))).
  Definition plim_of (k : kind) : V * V :=
    match k with
    | Residual => (nanmin (values i (model_phase Residual)), nanmax (values i (model_phase Residual)))
    | _ => full_turn
    end.

  Lemma ylim_ok l : finite l -> set_ylim isfinite l = Ok l.
  Proof. intros [A B]. unfold set_ylim. rewrite A, B. reflexivity. Qed.

  Lemma page_first k aroot proot : 128 <= in_n_tile i -> in_n_tile i < 256 ->
    in_n_tile i <= List.length (in_tile_names i) -> finite (lim_of k) -> finite (plim_of k) ->
    exists ps, draw_page isnan isfinite show i (model_amp k) (model_phase k) (lim_of k) (plim_of k) aroot proot 0
      = Ok (Page (in_obs_id i ++ aroot ++ ".png")%string (in_obs_id i ++ proot ++ ".png")%string (lim_of k) (plim_of k) ps) /\
      Forall2 (shows_tile gadd vabs varg vsub unwrap isnan i k) (seq 0 128) ps.
  Proof.
    intros A B Ln F1 F2. unfold draw_page. rewrite (ylim_ok _ F1). cbn [bind]. rewrite (ylim_ok _ F2). cbn [bind].
    rewrite full_page by (rewrite pages_one by assumption; lia).
    change (0 * (n_cols * n_rows)) with 0.
    destruct (map_res_total (draw_tile isnan i (model_amp k) (model_phase k) 0)
       (shows_tile gadd vabs varg vsub unwrap isnan i k) (seq 0 128)) as (ps & E & F).
    { intros t I. apply in_seq in I. apply tile_first; lia. }
    rewrite E. cbn [bind]. exists ps. split; [|exact F].
    unfold page_name. rewrite pages_one by assumption. cbn [Nat.ltb Nat.leb].
    change (("" ++ ".png")%string) with (".png"%string). reflexivity.
  Qed.

  Lemma every_values (c : nat -> nat -> list V) : values i c = every i c.
  Proof.
    unfold values, every. induction (seq 0 (in_n_pol i)) as [|p l IH]; [reflexivity|].
    cbn [flat_map list_prod]. rewrite IH, map_app, concat_app, map_map. cbn [fst snd].
    rewrite <- !flat_map_concat_map. reflexivity.
  Qed.

  Lemma every_ext (c c' : nat -> nat -> list V) : (forall p t, c p t = c' p t) -> every i c = every i c'.
  Proof. intros E. unfold every. f_equal. apply map_ext. intros [p t]. apply E. Qed.

  Lemma map_ne {A B} (f : A -> B) l : l <> [] -> map f l <> [].
  Proof. destruct l; [congruence|discriminate]. Qed.

  Lemma values_ne (c : nat -> nat -> list V) : 0 < in_n_tile i -> 0 < in_n_pol i -> c 0 0 <> [] -> values i c <> [].
  Proof.
    intros A B N. unfold values. destruct (in_n_pol i) as [|m]; [lia|]. destruct (in_n_tile i) as [|n]; [lia|].
    cbn [seq flat_map]. destruct (c 0 0); [congruence|discriminate].
  Qed.

  Lemma minmax_ok (c : nat -> nat -> list V) : values i c <> [] ->
    minmax nanmin nanmax i c = Ok (nanmin (values i c), nanmax (values i c)).
  Proof. intros N. unfold minmax. destruct (values i c); [congruence|reflexivity]. Qed.

  (** What the kinds share. *)

  Lemma lim_same k : lim_of k = spec_lim k.
  Proof. unfold lim_of, amp_limits. rewrite every_values, (every_ext _ (spec_amp k)); [reflexivity|apply amp_same]. Qed.
  Lemma plim_same k : plim_of k = spec_plim k.
  Proof.
    destruct k; try reflexivity. unfold plim_of, phase_limits.
    rewrite every_values, (every_ext _ (spec_phase Residual)); [reflexivity|apply phase_same].
  Qed.


  Lemma channel_ne : (exists f, nth f (in_freq_use i) false = true) -> good_channels i <> [].
  Proof.
    intros (f & E) N. assert (I : In f (good_channels i)).
    { unfold good_channels. apply filter_In. split; [|exact E]. apply in_seq.
      destruct (Nat.lt_ge_cases f (List.length (in_freq_use i))) as [L|L]; [lia|].
      rewrite nth_overflow in E by exact L. discriminate. }
    rewrite N in I. destruct I.
  Qed.

  Lemma amp_ne k : ready -> values i (model_amp k) <> [].
  Proof.
    intros (A & B & _ & _ & C & _). apply values_ne; try assumption. rewrite amp_same.
    apply channel_ne in C. destruct k; unfold amplitude, along; apply map_ne; exact C.
  Qed.

  Lemma phase_ne : ready -> values i (model_phase Residual) <> [].
  Proof.
    intros (A & B & _ & _ & C & U). apply values_ne; try assumption. rewrite phase_same.
    apply channel_ne in C. unfold phase, along, differences. apply map_ne.
    intros E. apply (f_equal (@List.length _)) in E. rewrite combine_length, !U, !map_length in E.
    destruct (good_channels i); [congruence|]. cbn [List.length] in E. lia.
  Qed.

  Notation call := (plot_cals gadd vabs varg vsub unwrap isnan isfinite nanmin nanmax full_turn show i).
  Definition roots (k : kind) : string * string :=
    match k with Solution => ("_cal_amp", "_cal_phase") | Residual => ("_cal_residual_amp", "_cal_residual_phase")
               | Raw => ("_cal_raw_amp", "_cal_raw_phase") end%string.
  Definition kind_pages (k : kind) : result (list (page V)) :=
    map_res (draw_page isnan isfinite show i (model_amp k) (model_phase k) (lim_of k) (plim_of k)
               (fst (roots k)) (snd (roots k))) (seq 0 (n_pages i)).

  Lemma call_ready : ready ->
    call = (a <- kind_pages Solution ;; b <- kind_pages Residual ;; c <- kind_pages Raw ;; Ok (a ++ b ++ c)).
  Proof.
    intros R. pose proof R as (_ & _ & P & Pn & _). unfold plot_cals.
    rewrite (minmax_ok (sol_amp vabs i)) by (apply (amp_ne Solution R)). cbn [bind].
    rewrite (minmax_ok (res_amp gadd vabs vsub i)) by (apply (amp_ne Residual R)). cbn [bind].
    rewrite (minmax_ok (raw_amp gadd vabs i)) by (apply (amp_ne Raw R)). cbn [bind].
    rewrite (minmax_ok (res_phase gadd varg vsub unwrap i)) by (apply phase_ne; exact R). cbn [bind].
    replace (2 <? in_n_pol i) with false by (symmetry; apply Nat.ltb_ge; exact P).
    replace (List.length (in_pol_names i) <? in_n_pol i) with false by (symmetry; apply Nat.ltb_ge; exact Pn).
    cbn [orb]. reflexivity.
  Qed.


  Lemma kind_one k : 128 <= in_n_tile i -> in_n_tile i < 256 -> in_n_tile i <= List.length (in_tile_names i) ->
    finite (spec_lim k) -> finite (spec_plim k) ->
    exists pg, kind_pages k = Ok [pg] /\ page_of k pg.
  Proof.
    intros A B Ln F1 F2. rewrite <- lim_same in F1. rewrite <- plim_same in F2. unfold kind_pages.
    rewrite pages_one by assumption. cbn [seq map_res].
    destruct (page_first k (fst (roots k)) (snd (roots k)) A B Ln F1 F2) as (ps & E & F).
    rewrite E. cbn [bind]. eexists. split; [reflexivity|].
    unfold PlotCalSpec.page_of. cbn [pg_amp_file pg_phase_file pg_amp_lim pg_phase_lim pg_panels].
    split; [destruct k; reflexivity|]. split; [apply lim_same|]. split; [apply plim_same|exact F].
  Qed.

  Lemma plot_first : ready -> 128 <= in_n_tile i -> in_n_tile i < 256 -> in_n_tile i <= List.length (in_tile_names i) ->
    (forall k, finite (spec_lim k) /\ finite (spec_plim k)) ->
    exists pages, call = Ok pages /\ Forall2 page_of kinds pages.
  Proof.
    intros R A B Ln F. rewrite (call_ready R).
    destruct (kind_one Solution A B Ln) as (p0 & E0 & P0); try apply F.
    destruct (kind_one Residual A B Ln) as (p1 & E1 & P1); try apply F.
    destruct (kind_one Raw A B Ln) as (p2 & E2 & P2); try apply F.
    rewrite E0, E1, E2. cbn [bind app]. exists [p0; p1; p2]. split; [reflexivity|].
    unfold kinds. constructor; [exact P0|constructor; [exact P1|constructor; [exact P2|constructor]]].
  Qed.

  Lemma plot_few : ready -> in_n_tile i < 128 -> call = Ok [].
  Proof.
    intros R L. rewrite (call_ready R). unfold kind_pages.
    assert (E : n_pages i = 0) by (apply Nat.div_small; exact L).
    rewrite E. reflexivity.
  Qed.

  (** With two pages or more the title of the last tile of the last page is asked for beyond the names. *)
  Lemma last_title : 2 <= n_pages i -> List.length (in_tile_names i) = in_n_tile i ->
    List.length (in_tile_names i) <= (n_pages i - 1 + 1) * (128 * n_pages i - 1).
  Proof.
    intros A ->. unfold n_pages in *. change (n_cols * n_rows) with 128 in *.
    pose proof (Nat.div_mod (in_n_tile i) 128 ltac:(discriminate)) as D.
    pose proof (Nat.mod_upper_bound (in_n_tile i) 128 ltac:(discriminate)) as M.
    set (q := in_n_tile i / 128) in *. nia.
  Qed.

  Lemma tile_index k pg t e : draw_tile isnan i (model_amp k) (model_phase k) pg t = Err e -> e = IndexError.
  Proof.
    unfold draw_tile, nth_res. destruct (nth_error (in_tile_names i) ((pg + 1) * t)); cbn [bind]; congruence.
  Qed.

  Lemma map_res_first {A B} (f : A -> result B) l a e : In a l -> f a = Err e ->
    (forall x e', In x l -> f x = Err e' -> e' = e) -> map_res f l = Err e.
  Proof.
    intros I E H. apply (map_res_stops f l a e I E). intros x Ix. destruct (f x) as [b|e'] eqn:Ex; [left; eauto|].
    right. f_equal. now apply (H x).
  Qed.

  Lemma page_index k a p pg e : finite (lim_of k) -> finite (plim_of k) ->
    draw_page isnan isfinite show i (model_amp k) (model_phase k) (lim_of k) (plim_of k) a p pg = Err e -> e = IndexError.
  Proof.
    intros F1 F2. unfold draw_page. rewrite (ylim_ok _ F1). cbn [bind]. rewrite (ylim_ok _ F2). cbn [bind].
    set (f := draw_tile isnan i (model_amp k) (model_phase k) pg). generalize (seq (pg * (n_cols * n_rows)) (page_tiles i pg)) as l.
    intros l. destruct (map_res f l) as [ps|e'] eqn:E; cbn [bind]; [discriminate|]. intros [= <-].
    revert e' E. induction l as [|t l IH]; intros e' E; cbn [map_res] in E; [discriminate|].
    destruct (f t) as [b|e1] eqn:Et; cbn [bind] in E.
    - destruct (map_res f l) as [bs|e2]; cbn [bind] in E; [discriminate|]. apply IH. exact E.
    - apply tile_index in Et. congruence.
  Qed.

  Lemma plot_many : ready -> 256 <= in_n_tile i -> List.length (in_tile_names i) = in_n_tile i ->
    finite (spec_lim Solution) -> finite full_turn -> call = Err IndexError.
  Proof.
    intros R A Ln F1 F2. rewrite (call_ready R).
    assert (F1' : finite (lim_of Solution)) by (rewrite lim_same; exact F1).
    assert (F2' : finite (plim_of Solution)) by (rewrite plim_same; exact F2).
    assert (N : 2 <= n_pages i).
    { unfold n_pages. change (n_cols * n_rows) with 128. apply Nat.div_le_lower_bound; lia. }
    assert (E : kind_pages Solution = Err IndexError).
    { unfold kind_pages. apply (map_res_first _ _ (n_pages i - 1)).
      - apply in_seq. lia.
      - unfold draw_page. rewrite (ylim_ok _ F1'). cbn [bind]. rewrite (ylim_ok _ F2'). cbn [bind].
        rewrite full_page by lia. change (n_cols * n_rows) with 128.
        rewrite (map_res_first _ _ (128 * n_pages i - 1) IndexError); [reflexivity| | |].
        + apply in_seq. lia.
        + unfold draw_tile, nth_res.
          replace (nth_error (in_tile_names i) ((n_pages i - 1 + 1) * (128 * n_pages i - 1))) with (@None string); [reflexivity|].
          symmetry. apply nth_error_None. apply last_title; assumption.
        + intros x e _ Ex. apply tile_index in Ex. exact Ex.
      - intros x e _ Ex. eapply page_index; eassumption. }
    rewrite E. reflexivity.
  Qed.

  Lemma every_in (c : nat -> nat -> list V) p t v : p < in_n_pol i -> t < in_n_tile i -> In v (c p t) -> In v (every i c).
  Proof using i.
    intros A B I. unfold every. apply in_concat. exists (c p t). split; [|exact I].
    apply in_map_iff. exists (p, t). split; [reflexivity|]. apply in_prod; apply in_seq; (split; [apply Nat.le_0_l|assumption]).
  Qed.
End Proofs.
