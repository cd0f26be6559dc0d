(** * C91: films and file names. *)
From Coq Require Import Reals Lra Lia List ZArith Ascii String DecimalString DecimalZ DecimalPos.
From Verif.Model Require Import Py Num Tensors Domain Refine Interp.
From Verif.Spec Require Import GridSpec RefineSpec InterpSpec.
From Verif.Model Require Import Steps Simulation Plot.
From Verif.Spec Require Import SimSpec LiveSpec PlotSpec.
From Verif.Proofs Require Import Lib PlotP PlotS PlotD SimP SimQ SimR SimH SimL SimA SimE.
From Verif.Props Require Import SimProps FailProps PlotProps.
Local Open Scope R_scope.
Import ListNotations.
Local Notation length := List.length.

(** ** The film *)
(** One frame per recorded step, in order, each the picture that [plot_step] draws of that step. *)
Theorem C91_one_frame_per_step : forall u s name, reachable u s -> has_cells u -> fine_enough u ->
  exists f, save_animation s name = Ok f /\ film_name f = (name ++ ".mp4")%string /\ length (film_frames f) = length (s_steps s) /\
    forall i, (i < length (s_steps s))%nat -> exists ax, nth_error (film_frames f) i = Some ax /\ plot_figure s (Z.of_nat i) = Ok (Some ax).
Proof.
  intros u s name HR HC FE. destruct (sim_axis_lims u s HR) as (xl & yl & EX & EY & EA).
  assert (FR : forall i, (i < length (s_steps s))%nat -> exists ax, animate_frame s i = Ok ax /\ plot_figure s (Z.of_nat i) = Ok (Some ax)).
  { intros i Hi. destruct (C89_plot_step_shows_the_step u s (Z.of_nat i) HR HC FE ltac:(lia)) as (st & ax & a & E & EP & _). exists ax. split; [|exact EP].
    destruct (plot_figure_at u s (Z.of_nat i) st HR ltac:(lia) E) as (xl' & yl' & EX' & EY' & EP'). rewrite EX in EX'. rewrite EY in EY'. injection EX' as <-. injection EY' as <-. rewrite EP in EP'. symmetry in EP'. apply bind_ok in EP' as (ax' & ES & Q). injection Q as ->.
    unfold animate_frame, finite_lims. rewrite EX, EY. cbn [bind]. rewrite E. cbn [bind]. exact ES. }
  destruct (mapM_exists (animate_frame s) (range (length (s_steps s)))) as [fr Efr]. { intros i Ii. apply in_range in Ii. destruct (FR i Ii) as (ax & Q & _). eauto. }
  exists (mkFilm (name ++ ".mp4") 30 fr). unfold save_animation. rewrite EA. cbn [bind]. rewrite Efr. cbn [bind film_name film_frames]. split; [reflexivity|]. split; [reflexivity|].
  pose proof (mapM_length _ _ _ Efr) as Lf. rewrite range_length in Lf. split; [exact Lf|]. intros i Hi. destruct (FR i Hi) as (ax & Q1 & Q2). exists ax. split; [|exact Q2].
  destruct (nth_error_mapped _ _ _ (proj1 (mapM_ok_iff _ _ _) Efr) i i) as (ax' & N & Q). { unfold range. rewrite nth_error_nth' with (d := 0%nat) by (rewrite seq_length; exact Hi). rewrite seq_nth by exact Hi. reflexivity. }
  rewrite Q1 in Q. injection Q as ->. exact N.
Qed.
Print Assumptions C91_one_frame_per_step.

Lemma at_least_two u s : reachable u s -> (2 <= length (s_steps s))%nat.
Proof.
  induction 1 as [s V C|n s s' r H IH E]; [rewrite (C65_construction u s V C); lia|]. destruct (C69_steps_kept u s n s' r H E) as (new & -> & _). rewrite app_length. lia.
Qed.
(** The film does not run in real time: frame [i] is on screen [i / 30] seconds after the start, but step [i] is the state at time [i / fps]. *)
Theorem C91_real_time_refuted : forall u s name f, reachable u s -> 0 < p_fps (se_params u) -> save_animation s name = Ok f ->
  film_fps f = 30%Z /\
  ((forall i, (i < length (film_frames f))%nat -> INR i / IZR (film_fps f) = INR i / p_fps (se_params u)) <-> p_fps (se_params u) = 30).
Proof.
  intros u s name f HR HF E. unfold save_animation in E. apply bind_ok in E as (ax & _ & E). apply bind_ok in E as (fr & Efr & E). injection E as <-. cbn [film_fps film_frames]. split; [reflexivity|].
  rewrite (mapM_length _ _ _ Efr), range_length. split; [|intros -> i _; reflexivity]. intros H.
  assert (L : (1 < length (s_steps s))%nat). { pose proof (at_least_two u s HR). lia. }
  specialize (H 1%nat L). cbn [INR] in H. assert (Q : p_fps (se_params u) / 30 = 1). { transitivity (p_fps (se_params u) * (1 / 30)); [field|]. rewrite H. field. lra. } lra.
Qed.
Print Assumptions C91_real_time_refuted.

(** ** File names *)
Lemma chars_app a b : list_ascii_of_string (a ++ b) = (list_ascii_of_string a ++ list_ascii_of_string b)%list.
Proof. induction a as [|c a IH]; [reflexivity|]. cbn. rewrite IH. reflexivity. Qed.
Lemma chars_inj a b : list_ascii_of_string a = list_ascii_of_string b -> a = b.
Proof. intros H. rewrite <- (string_of_list_ascii_of_string a), <- (string_of_list_ascii_of_string b), H. reflexivity. Qed.
Lemma digits_no_underscore d : ~ In "_"%char (list_ascii_of_string (NilZero.string_of_int (Decimal.Pos d))).
Proof.
  assert (E : forall d, ~ In "_"%char (list_ascii_of_string (NilEmpty.string_of_uint d))). { intros e. induction e as [|e IH|e IH|e IH|e IH|e IH|e IH|e IH|e IH|e IH|e IH]; [intros []|..]; cbn [NilEmpty.string_of_uint list_ascii_of_string In]; (intros [Q|Q]; [discriminate Q|exact (IH Q)]). }
  cbn [NilZero.string_of_int]. unfold NilZero.string_of_uint. destruct d; try (apply E); cbn; intros [Q|[]]; discriminate Q.
Qed.
Lemma last_split (c : Ascii.ascii) a a' b b' : ~ In c b -> ~ In c b' -> (a ++ c :: b = a' ++ c :: b')%list -> a = a' /\ b = b'.
Proof.
  revert a'. induction a as [|x a IH]; intros [|x' a'] H H' E; cbn in E.
  - injection E as E2. auto.
  - injection E as E1 E2. subst. exfalso. apply H. apply in_or_app. right. left. reflexivity.
  - injection E as E1 E2. subst. exfalso. apply H'. apply in_or_app. right. left. reflexivity.
  - injection E as E1 E2. subst. destruct (IH a' H H' E2) as [-> ->]. auto.
Qed.
Lemma decimal_inj i j : (0 <= i)%Z -> (0 <= j)%Z -> decimal i = decimal j -> i = j.
Proof.
  intros Hi Hj E. unfold decimal in E. assert (P : forall z, (0 <= z)%Z -> NilZero.int_of_string (NilZero.string_of_int (Z.to_int z)) = Some (Z.to_int z)).
  { intros z Hz. apply NilZero.isi; destruct z as [|p|p]; cbn; try discriminate; try lia. intros Q. injection Q as Q. exact (Unsigned.to_uint_nonnil p Q). }
  apply to_int_inj. pose proof (P i Hi) as A. rewrite E, (P j Hj) in A. congruence.
Qed.
Lemma decimal_digits i : (0 <= i)%Z -> ~ In "_"%char (list_ascii_of_string (decimal i)).
Proof. intros H. unfold decimal. destruct i as [|p|p]; [apply digits_no_underscore|apply digits_no_underscore|lia]. Qed.

(** The file of step [i] shows what [plot_step] shows; out-of-range indices write nothing. *)
Theorem C91_file_shows_the_step : forall s i path, match save_figure s i path with
  | Ok (Some (name, ax)) => plot_figure s i = Ok (Some ax)
  | Ok None => plot_figure s i = Ok None
  | Err e => plot_figure s i = Err e
  end.
Proof. intros s i path. unfold save_figure. destruct (plot_figure s i) as [[ax|]|e]; reflexivity. Qed.
Print Assumptions C91_file_shows_the_step.
(** Two files have the same name exactly if the two indices denote the same step (counted from the front or from the back) and the paths are equal: no
    picture overwrites the picture of another step, and all indices of a step write the same file. *)
Theorem C91_file_names : forall s i j path path' name ax name' ax', save_figure s i path = Ok (Some (name, ax)) -> save_figure s j path' = Ok (Some (name', ax')) ->
  (name = name' <-> path = path' /\ py_index (range (length (s_steps s))) i = py_index (range (length (s_steps s))) j) /\ (name = name' -> ax = ax').
Proof.
  intros s i j path path' name ax name' ax' E E'. set (n := Z.of_nat (length (s_steps s))).
  assert (K : forall i path name ax, save_figure s i path = Ok (Some (name, ax)) -> let k := (if (0 <=? i)%Z then i else n + i)%Z in
    (0 <= k < n)%Z /\ name = (path ++ "_" ++ decimal k ++ ".png")%string /\ plot_figure s i = Ok (Some ax) /\ py_index (range (length (s_steps s))) i = Ok (Z.to_nat k) /\ (forall A (l : list A), length l = length (s_steps s) -> py_index l i = py_index l k)).
  { clear. intros i path name ax E k. unfold save_figure in E. apply bind_ok in E as (fig & P & E). destruct fig as [ax9|]; [|discriminate]. injection E as <- ->. fold n. fold k.
    assert (Hi : (- n <= i < n)%Z). { destruct (Z_le_dec (- n) i) as [A|A]; [destruct (Z_lt_dec i n) as [B|B]; [lia|]|]; unfold n in *; rewrite C89_other_indices in P by lia; discriminate. }
    assert (Hk : (0 <= k < n)%Z) by (unfold k; destruct (0 <=? i)%Z eqn:Q; [apply Z.leb_le in Q|apply Z.leb_gt in Q]; lia).
    assert (IX : forall A (l : list A), length l = length (s_steps s) -> py_index l i = py_index l k).
    { intros A l Ll. unfold py_index. rewrite Ll. fold n. destruct (k <? 0)%Z eqn:Q; [apply Z.ltb_lt in Q; lia|]. replace (if (i <? 0)%Z then (n + i)%Z else i) with k; [rewrite Q; reflexivity|]. unfold k. rewrite Z.leb_antisym. destruct (i <? 0)%Z; reflexivity. }
    split; [exact Hk|]. split; [reflexivity|]. split; [exact P|]. split; [|exact IX]. rewrite IX by apply range_length. unfold py_index. destruct (k <? 0)%Z eqn:Q; [apply Z.ltb_lt in Q; lia|]. rewrite Q. unfold range. rewrite nth_error_nth' with (d := 0%nat) by (rewrite seq_length; lia). rewrite seq_nth by lia. reflexivity. }
  destruct (K i path name ax E) as (H1 & N1 & P1 & X1 & S1). destruct (K j path' name' ax' E') as (H2 & N2 & P2 & X2 & S2). cbv zeta in *. set (k := (if (0 <=? i)%Z then i else n + i)%Z) in *. set (k' := (if (0 <=? j)%Z then j else n + j)%Z) in *. clear K.
  assert (I : name = name' -> path = path' /\ k = k').
  { intros Q. rewrite N1, N2 in Q. apply (f_equal list_ascii_of_string) in Q. rewrite !chars_app, !app_assoc in Q. apply app_inv_tail in Q. change (list_ascii_of_string "_") with ["_"%char] in Q. rewrite <- !app_assoc in Q. cbn [app] in Q.
    apply last_split in Q as [Q1 Q2]; [|apply decimal_digits; lia|apply decimal_digits; lia]. split; [apply chars_inj, Q1|]. apply decimal_inj; [lia|lia|]. apply chars_inj, Q2. }
  split; [split|].
  - intros Q. destruct (I Q) as [-> Q']. split; [reflexivity|]. rewrite X1, X2, Q'. reflexivity.
  - intros [-> Q]. rewrite X1, X2 in Q. injection Q as Q. assert (k = k') as Qk by lia. rewrite N1, N2, Qk. reflexivity.
  - intros Q. destruct (I Q) as [_ Qk]. assert (PE : plot_figure s i = plot_figure s j).
    { unfold plot_figure. cbv zeta. fold n. rewrite (S1 _ (s_steps s) eq_refl), (S2 _ (s_steps s) eq_refl), Qk. destruct ((i <? - n) || (n <=? i))%Z eqn:A.
      - exfalso. unfold plot_figure in P1. fold n in P1. cbv zeta in P1. rewrite A in P1. discriminate.
      - destruct ((j <? - n) || (n <=? j))%Z eqn:B; [|reflexivity]. exfalso. unfold plot_figure in P2. fold n in P2. cbv zeta in P2. rewrite B in P2. discriminate. }
    rewrite P1, P2 in PE. congruence.
Qed.
Print Assumptions C91_file_names.
(** The hypotheses are met by the example simulation (five steps): the film has five frames, and -1 and 4 write the same file. *)
Example C91_example : forall reg, reg = None \/ reg = Some 1 -> let u := ex_setting reg [] in exists s, reachable u s /\ has_cells u /\ fine_enough u /\ 0 < p_fps (se_params u) /\ length (s_steps s) = 5%nat /\
  (exists f, save_animation s "film" = Ok f /\ length (film_frames f) = 5%nat) /\ (exists ax, save_figure s 4 "a" = Ok (Some ("a_4.png"%string, ax)) /\ save_figure s (-1) "a" = Ok (Some ("a_4.png"%string, ax))).
Proof.
  intros reg Hr u. assert (Hr' : forall e, reg = Some e -> 0 <= e) by (intros e E; destruct Hr as [-> | ->]; [discriminate|injection E as <-; lra]). destruct (ex_state reg Hr') as (s & U & L & _). pose proof (undisturbed_reachable _ _ U) as H.
  assert (HC : has_cells u) by (unfold has_cells; cbn; lra). pose proof (ex_fine reg []) as FE. exists s. split; [exact H|]. split; [exact HC|]. split; [exact FE|]. split; [apply ex_fps|]. split; [exact L|]. split.
  - destruct (C91_one_frame_per_step u s "film" H HC FE) as (f & E & _ & Lf & _). exists f. rewrite Lf. auto.
  - destruct (C89_plot_step_shows_the_step u s 4 H HC FE) as (st & ax & a & _ & EP & _); [lia|]. destruct (C89_plot_step_shows_the_step u s (-1) H HC FE) as (st' & ax' & a' & _ & EP' & _); [lia|].
    assert (Z1 : save_figure s 4 "a" = Ok (Some ("a_4.png"%string, ax))) by (unfold save_figure; rewrite EP; reflexivity). assert (Z2 : save_figure s (-1) "a" = Ok (Some ("a_4.png"%string, ax'))) by (unfold save_figure; rewrite EP', L; reflexivity).
    exists ax. split; [exact Z1|]. rewrite Z2. destruct (C91_file_names s _ _ _ _ _ _ _ _ Z1 Z2) as [_ Q]. rewrite (Q eq_refl). reflexivity.
Qed.
