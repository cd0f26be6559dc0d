(** Integer lattice bookkeeping for the refinement proofs: vertex numbering by position in a list of lattice
    points, lattice triangles, their nodes and sub-triangles. *)
From Coq Require Import Lia ZArith List Psatz.
From Verif.Model Require Import Py Num Tensors Domain Refine.
From Verif.Proofs Require Import Lib.

Definition Z2 := (Z * Z)%type.
Definition z2eqb (a b : Z2) : bool := (Z.eqb (fst a) (fst b) && Z.eqb (snd a) (snd b))%bool.
Lemma z2eqb_spec a b : Bool.reflect (a = b) (z2eqb a b).
Proof.
  destruct a as [x y], b as [x' y']. unfold z2eqb. cbn [fst snd].
  destruct (Z.eqb_spec x x'), (Z.eqb_spec y y'); cbn [andb]; constructor; congruence.
Qed.

(** ** Position in a list *)
Fixpoint idx (L : list Z2) (x : Z2) : nat := match L with [] => 0 | y :: r => if z2eqb x y then 0 else S (idx r x) end.
Lemma idx_nth L x : In x L -> nth_error L (idx L x) = Some x.
Proof.
  induction L as [|y L IH]; [intros []|]. cbn [idx]. intros H. destruct (z2eqb_spec x y) as [->|Hne]; [reflexivity|].
  destruct H as [H|H]; [congruence|]. cbn [nth_error]. apply IH, H.
Qed.
Lemma idx_lt L x : In x L -> idx L x < length L.
Proof. intros H. apply nth_error_Some. rewrite (idx_nth L x H). discriminate. Qed.
Lemma idx_unique L x v : NoDup L -> nth_error L v = Some x -> idx L x = v.
Proof.
  intros ND H. pose proof (nth_error_In _ _ H) as HI. pose proof (idx_nth L x HI) as H'.
  apply (proj1 (NoDup_nth_error L) ND); [apply idx_lt, HI|congruence].
Qed.
Lemma idx_app L M x : In x L -> idx (L ++ M) x = idx L x.
Proof.
  induction L as [|y L IH]; [intros []|]. cbn [idx app]. intros H. destruct (z2eqb_spec x y) as [->|Hne]; [reflexivity|].
  destruct H as [H|H]; [congruence|]. rewrite IH by exact H. reflexivity.
Qed.
Lemma idx_inj L x y : In x L -> In y L -> idx L x = idx L y -> x = y.
Proof. intros Hx Hy E. pose proof (idx_nth L x Hx) as A. rewrite E, (idx_nth L y Hy) in A. congruence. Qed.
Lemma idx_map (f : Z2 -> Z2) L x : (forall a b, f a = f b -> a = b) -> idx (map f L) (f x) = idx L x.
Proof.
  intros Hf. induction L as [|y L IH]; [reflexivity|]. cbn [map idx].
  destruct (z2eqb_spec (f x) (f y)) as [E|E], (z2eqb_spec x y) as [E'|E']; try reflexivity; try (exfalso; auto; congruence).
  rewrite IH. reflexivity.
Qed.

(** ** Adding points *)
Definition memz (x : Z2) (L : list Z2) : bool := existsb (z2eqb x) L.
Lemma memz_iff x L : memz x L = true <-> In x L.
Proof.
  unfold memz. rewrite existsb_exists. split.
  - intros [y [H E]]. destruct (z2eqb_spec x y); [subst; exact H|discriminate].
  - intros H. exists x. split; [exact H|]. destruct (z2eqb_spec x x); congruence.
Qed.
Definition add (L : list Z2) (x : Z2) : list Z2 := if memz x L then L else L ++ [x].
Definition adds (L xs : list Z2) : list Z2 := fold_left add xs L.
Lemma add_cases L x : (In x L /\ add L x = L) \/ (~ In x L /\ add L x = L ++ [x]).
Proof.
  unfold add. destruct (memz x L) eqn:E.
  - left. split; [apply memz_iff, E|reflexivity].
  - right. split; [intros H; apply memz_iff in H; congruence|reflexivity].
Qed.
Lemma adds_app L xs ys : adds L (xs ++ ys) = adds (adds L xs) ys.
Proof. apply fold_left_app. Qed.
Lemma adds_snoc L xs y : adds L (xs ++ [y]) = add (adds L xs) y.
Proof. rewrite adds_app. reflexivity. Qed.
Lemma add_in L x y : In y (add L x) <-> In y L \/ y = x.
Proof.
  destruct (add_cases L x) as [[H ->]|[H ->]].
  - split; [tauto|]. intros [?| ->]; assumption.
  - rewrite in_app_iff. cbn. intuition congruence.
Qed.
Lemma adds_in L xs y : In y (adds L xs) <-> In y L \/ In y xs.
Proof.
  revert L. induction xs as [|x xs IH]; intros L; cbn; [tauto|]. unfold adds in IH. rewrite IH, add_in. intuition congruence.
Qed.
Lemma add_ext L x : exists M, add L x = L ++ M.
Proof. destruct (add_cases L x) as [[_ ->]|[_ ->]]; [exists []; rewrite app_nil_r; reflexivity|eexists; reflexivity]. Qed.
Lemma adds_ext L xs : exists M, adds L xs = L ++ M.
Proof.
  revert L. induction xs as [|x xs IH]; intros L; [exists []; rewrite app_nil_r; reflexivity|].
  cbn. destruct (add_ext L x) as [M E]. destruct (IH (add L x)) as [M' E']. unfold adds in E'. rewrite E', E, <- app_assoc. eexists. reflexivity.
Qed.
Lemma add_NoDup L x : NoDup L -> NoDup (add L x).
Proof.
  intros H. destruct (add_cases L x) as [[_ ->]|[Hx ->]]; [exact H|]. apply NoDup_app_; [exact H|constructor; [intros []|constructor]|].
  intros y Hy [E|[]]. subst. contradiction.
Qed.
Lemma adds_NoDup L xs : NoDup L -> NoDup (adds L xs).
Proof. revert L. induction xs as [|x xs IH]; intros L H; [exact H|]. cbn. apply IH, add_NoDup, H. Qed.
Lemma idx_adds L xs x : In x L -> idx (adds L xs) x = idx L x.
Proof. intros H. destruct (adds_ext L xs) as [M ->]. apply idx_app, H. Qed.

(** ** Lattice triangles: corner [P] and orientation [e] = 1 or -1, corners P, P+e(1,0), P+e(1,1). *)
Definition ltri := (Z2 * Z)%type.
Local Open Scope Z_scope.
Definition c1 (T : ltri) : Z2 := fst T.
Definition c2 (T : ltri) : Z2 := (fst (fst T) + snd T, snd (fst T)).
Definition c3 (T : ltri) : Z2 := (fst (fst T) + snd T, snd (fst T) + snd T).
Definition oriented (T : ltri) : Prop := snd T = 1 \/ snd T = -1.
Definition tidx (L : list Z2) (T : ltri) : triangle := (idx L (c1 T), idx L (c2 T), idx L (c3 T)).
Definition tin (L : list Z2) (T : ltri) : Prop := In (c1 T) L /\ In (c2 T) L /\ In (c3 T) L.
Lemma tidx_inj L T T' : tin L T -> tin L T' -> tidx L T = tidx L T' -> T = T'.
Proof.
  intros [A [B _]] [A' [B' _]] E. unfold tidx in E. injection E as E1 E2 _.
  apply idx_inj in E1; try assumption. apply idx_inj in E2; try assumption.
  destruct T as [[x y] e], T' as [[x' y'] e']. unfold c1, c2 in *. cbn [fst snd] in *. injection E1 as -> ->. injection E2 as E2.
  do 2 f_equal. lia.
Qed.
Lemma tidx_adds L xs T : tin L T -> tidx (adds L xs) T = tidx L T.
Proof. intros [A [B C]]. unfold tidx. rewrite !idx_adds by assumption. reflexivity. Qed.
Lemma tin_adds L xs T : tin L T -> tin (adds L xs) T.
Proof. intros [A [B C]]. repeat split; apply adds_in; left; assumption. Qed.

(** The fine lattice point in position [(k, l)] of [T] refined [n] times. *)
Definition node (n : nat) (T : ltri) (k l : nat) : Z2 :=
  (Z.of_nat n * fst (fst T) + snd T * (Z.of_nat k + Z.of_nat l), Z.of_nat n * snd (fst T) + snd T * Z.of_nat l).
Definition scale (n : nat) (x : Z2) : Z2 := (Z.of_nat n * fst x, Z.of_nat n * snd x).
Lemma scale_inj n a b : (1 <= n)%nat -> scale n a = scale n b -> a = b.
Proof. destruct a, b. unfold scale. cbn [fst snd]. intros Hn E. injection E as E1 E2. f_equal; nia. Qed.
Lemma node_c1 n T : node n T 0 0 = scale n (c1 T).
Proof. unfold node, scale, c1. cbn. f_equal; ring. Qed.
Lemma node_c2 n T : node n T n 0 = scale n (c2 T).
Proof. unfold node, scale, c2. cbn [fst snd Z.of_nat]. f_equal; ring. Qed.
Lemma node_c3 n T : node n T 0 n = scale n (c3 T).
Proof. unfold node, scale, c3. cbn [fst snd Z.of_nat]. f_equal; ring. Qed.

Definition nodes (n : nat) (T : ltri) : list Z2 := map (fun kl => node n T (fst kl) (snd kl)) (kl_all n).
Lemma in_kl_all n k l : In (k, l) (kl_all n) <-> (k + l <= n)%nat.
Proof.
  unfold kl_all. rewrite in_flat_map. split.
  - intros [l' [Hl H]]. apply in_map_iff in H as [k' [E H]]. injection E as -> ->. apply in_range in Hl, H. lia.
  - intros H. exists l. split; [apply in_range; lia|]. apply in_map_iff. exists k. split; [reflexivity|apply in_range; lia].
Qed.
Lemma in_kl_lower n k l : In (k, l) (kl_lower n) <-> (k + l < n)%nat.
Proof.
  unfold kl_lower. rewrite in_flat_map. split.
  - intros [l' [Hl H]]. apply in_map_iff in H as [k' [E H]]. injection E as -> ->. apply in_range in Hl, H. lia.
  - intros H. exists l. split; [apply in_range; lia|]. apply in_map_iff. exists k. split; [reflexivity|apply in_range; lia].
Qed.
Lemma in_kl_upper n k l : In (k, l) (kl_upper n) <-> (1 <= k /\ k + l < n)%nat.
Proof.
  unfold kl_upper. rewrite in_flat_map. split.
  - intros [l' [Hl H]]. apply in_map_iff in H as [k' [E H]]. injection E as -> ->. apply in_range in Hl. apply in_range2 in H. lia.
  - intros H. exists l. split; [apply in_range; lia|]. apply in_map_iff. exists k. split; [reflexivity|apply in_range2; lia].
Qed.
Lemma NoDup_kl (f : nat -> list nat) (r : list nat) : NoDup r -> (forall l, NoDup (f l)) -> NoDup (flat_map (fun l => map (fun k => (k, l)) (f l)) r).
Proof.
  intros Hr Hf. apply NoDup_flat_map; [exact Hr|intros l _; apply NoDup_map_inj_in; [apply Hf|intros a b _ _ E; congruence]|].
  intros a b x _ _ Ha Hb. apply in_map_iff in Ha as [k [<- _]]. apply in_map_iff in Hb as [k' [E _]]. congruence.
Qed.
Lemma NoDup_lower n : NoDup (kl_lower n).
Proof. apply NoDup_kl; [apply NoDup_range|intros; apply NoDup_range]. Qed.
Lemma NoDup_upper n : NoDup (kl_upper n).
Proof. apply NoDup_kl; [apply NoDup_range|intros; apply seq_NoDup]. Qed.
Lemma in_nodes n T x : In x (nodes n T) <-> exists k l, (k + l <= n)%nat /\ x = node n T k l.
Proof.
  unfold nodes. rewrite in_map_iff. split.
  - intros [[k l] [<- H]]. apply in_kl_all in H. exists k, l. auto.
  - intros [k [l [H ->]]]. exists (k, l). split; [reflexivity|apply in_kl_all, H].
Qed.

(** Sub-triangles with the positions of their corners. *)
Definition lsub (n : nat) (T : ltri) (kl : nat * nat) : ltri := (node n T (fst kl) (snd kl), snd T).
Definition usub (n : nat) (T : ltri) (kl : nat * nat) : ltri := (node n T (fst kl) (snd kl + 1), - snd T).
Definition subs (n : nat) (T : ltri) : list ltri := map (lsub n T) (kl_lower n) ++ map (usub n T) (kl_upper n).
Lemma lsub_corners n T k l : c1 (lsub n T (k, l)) = node n T k l /\ c2 (lsub n T (k, l)) = node n T (k + 1) l /\ c3 (lsub n T (k, l)) = node n T k (l + 1).
Proof. unfold lsub, c1, c2, c3, node. cbn [fst snd]. repeat split; f_equal; lia. Qed.
Lemma usub_corners n T k l : (1 <= k)%nat ->
  c1 (usub n T (k, l)) = node n T k (l + 1) /\ c2 (usub n T (k, l)) = node n T (k - 1) (l + 1) /\ c3 (usub n T (k, l)) = node n T k l.
Proof. intros Hk. unfold usub, c1, c2, c3, node. cbn [fst snd]. rewrite !Nat2Z.inj_add, Nat2Z.inj_sub by exact Hk. repeat split; f_equal; lia. Qed.
Lemma in_subs n T S : In S (subs n T) <-> (exists k l, (k + l < n)%nat /\ S = lsub n T (k, l)) \/ (exists k l, (1 <= k /\ k + l < n)%nat /\ S = usub n T (k, l)).
Proof.
  unfold subs. rewrite in_app_iff, !in_map_iff. split.
  - intros [[[k l] [<- H]]|[[k l] [<- H]]]; [apply in_kl_lower in H; left|apply in_kl_upper in H; right]; eauto.
  - intros [[k [l [H ->]]]|[k [l [H ->]]]]; [left|right]; exists (k, l); (split; [reflexivity|]); [apply in_kl_lower|apply in_kl_upper]; exact H.
Qed.
Lemma subs_corners n T S : In S (subs n T) -> In (c1 S) (nodes n T) /\ In (c2 S) (nodes n T) /\ In (c3 S) (nodes n T).
Proof.
  intros H. apply in_subs in H as [[k [l [H ->]]]|[k [l [H ->]]]].
  - destruct (lsub_corners n T k l) as [-> [-> ->]]. repeat split; apply in_nodes; do 2 eexists; (split; [|reflexivity]); lia.
  - destruct (usub_corners n T k l) as [-> [-> ->]]; [lia|]. repeat split; apply in_nodes; do 2 eexists; (split; [|reflexivity]); lia.
Qed.
Lemma subs_oriented n T S : oriented T -> In S (subs n T) -> oriented S.
Proof. unfold oriented. intros HT H. apply in_subs in H as [[k [l [H ->]]]|[k [l [H ->]]]]; cbn; lia. Qed.

(** The cell (lower left corner) of a lattice triangle, and which half. *)
Definition cell (T : ltri) : Z2 := if Z.eqb (snd T) 1 then fst T else (fst (fst T) - 1, snd (fst T) - 1).
Lemma ltri_cell T T' : oriented T -> oriented T' -> cell T = cell T' -> snd T = snd T' -> T = T'.
Proof.
  destruct T as [[x y] e], T' as [[x' y'] e']. unfold oriented, cell. cbn [fst snd]. intros [->| ->] [->| ->]; cbn; intros E E2; try discriminate; injection E as E3 E4; repeat f_equal; lia.
Qed.
(** A fine triangle determines the coarse triangle and the position: division with remainder. *)
Lemma sub_cell n T S : oriented T -> In S (subs n T) ->
  exists u w, 0 <= u < Z.of_nat n /\ 0 <= w < Z.of_nat n /\
    cell S = (Z.of_nat n * fst (cell T) + u, Z.of_nat n * snd (cell T) + w) /\
    (snd T = 1 <-> w < u \/ (w = u /\ snd S = 1)).
Proof.
  intros HT H. destruct T as [[x y] e]. unfold oriented in HT. cbn [fst snd] in HT. apply in_subs in H as [[k [l [H ->]]]|[k [l [H ->]]]].
  - destruct HT as [-> | ->]; unfold lsub, cell, node; cbn [fst snd Z.eqb Pos.eqb].
    + exists (Z.of_nat k + Z.of_nat l), (Z.of_nat l). repeat split; try lia. f_equal; lia.
    + exists (Z.of_nat n - Z.of_nat k - Z.of_nat l - 1), (Z.of_nat n - Z.of_nat l - 1). repeat split; try lia. f_equal; lia.
  - destruct HT as [-> | ->]; unfold usub, cell, node; cbn [fst snd Z.eqb Pos.eqb Z.opp].
    + exists (Z.of_nat k + Z.of_nat l), (Z.of_nat l). rewrite Nat2Z.inj_add. repeat split; try lia. f_equal; lia.
    + exists (Z.of_nat n - Z.of_nat k - Z.of_nat l - 1), (Z.of_nat n - Z.of_nat l - 1). rewrite Nat2Z.inj_add. repeat split; try lia. f_equal; lia.
Qed.
Lemma sub_parent n T T' S : oriented T -> oriented T' -> In S (subs n T) -> In S (subs n T') -> T = T'.
Proof.
  intros HT HT' H H'. destruct (sub_cell n T S HT H) as [u [w [Hu [Hw [E1 E2]]]]]. destruct (sub_cell n T' S HT' H') as [u' [w' [Hu' [Hw' [E1' E2']]]]].
  rewrite E1 in E1'. injection E1' as Ex Ey.
  assert (K : forall a b c d N, 0 <= c < N -> 0 <= d < N -> N * a + c = N * b + d -> a = b /\ c = d).
  { intros a b c d N Hc Hd EE. assert (a = b) as -> by (destruct (Z.lt_trichotomy a b) as [L|[L|L]]; nia). split; [reflexivity|lia]. }
  apply K in Ex as [A ->]; [|assumption|assumption]. apply K in Ey as [B ->]; [|assumption|assumption].
  apply ltri_cell; try assumption.
  - destruct (cell T), (cell T'). cbn in A, B. congruence.
  - unfold oriented in *. destruct HT as [C|C], HT' as [C'|C']; rewrite C, C' in *; try reflexivity; exfalso; tauto || (destruct E2, E2'; lia).
Qed.
Lemma node_inj n T k l k' l' : oriented T -> node n T k l = node n T k' l' -> k = k' /\ l = l'.
Proof. unfold node, oriented. intros HT E. injection E as E1 E2. destruct HT as [HT|HT]; rewrite HT in *; lia. Qed.
Lemma subs_NoDup n T : oriented T -> NoDup (subs n T).
Proof.
  intros HT. unfold subs. apply NoDup_app_.
  - apply NoDup_map_inj_in; [apply NoDup_lower|]. intros [k l] [k' l'] _ _ E. unfold lsub in E. cbn [fst snd] in E. injection E as E1 E2.
    destruct (node_inj n T k l k' l' HT) as [-> ->]; [unfold node; congruence|reflexivity].
  - apply NoDup_map_inj_in; [apply NoDup_upper|]. intros [k l] [k' l'] _ _ E. unfold usub in E. cbn [fst snd] in E. injection E as E1 E2.
    destruct (node_inj n T k (l + 1) k' (l' + 1) HT) as [-> E3]; [unfold node; congruence|]. f_equal. lia.
  - intros S H1 H2. apply in_map_iff in H1 as [kl [<- _]]. apply in_map_iff in H2 as [kl' [E _]]. unfold lsub, usub, oriented in *. injection E as _ _ E. lia.
Qed.
