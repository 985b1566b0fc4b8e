(** C71: recording and storing the compensation of cogging torque. *)
From Coq Require Import Ascii String ZArith List Bool Lia ZifyBool ZifyNat Reals Lra Floats.SpecFloat.
From Flocq Require Import Core BinarySingleNaN.
From Verif Require Import PyBase PyBytes PyFloat Float_Proofs Tool_Model Calib_Model Config_Model Flash_Model
  Flash_Proofs Calfile_Model Migrate_Tables Proc Compensate_Model Compensate_Spec Compensate_Proofs.
Import ListNotations.
Open Scope Z_scope.

(** ** Runs that end well *)
Lemma texts_app t u : texts (t ++ u) = texts t ++ texts u.
Proof. apply flat_map_app. Qed.
Lemma histograms_app t u : histograms (t ++ u) = histograms t ++ histograms u.
Proof. apply flat_map_app. Qed.

Lemma texts_cons e t : texts (e :: t) = match sent e with Some x => [x] | None => [] end ++ texts t.
Proof. reflexivity. Qed.
Lemma histograms_cons r x t : histograms (kanswered r x :: t) =
  match r return option (err + krep r) -> list (list Z) with
  | KCommand text any => fun o => match o with
                                  | Some (inr reply) => if bytes_eqb text (lit "d hend") then [reply] else []
                                  | _ => []
                                  end
  | _ => fun _ => []
  end (Some x) ++ histograms t.
Proof. destruct r; reflexivity. Qed.

Lemma ok_await r a t : traces (kawait r) t (Some (inr a)) -> t = [kanswered r (inr a)].
Proof. apply (traces_ok_ask (Req := kreq) (Rep := krep)). Qed.
Lemma ok_command text a t : traces (kcommand text) t (Some (inr a)) -> t = [kanswered (KCommand text false) (inr a)].
Proof. apply (ok_await (KCommand text false)). Qed.
Lemma ok_set name value u t : traces (kset name value) t (Some (inr u)) ->
  exists r, t = [kanswered (KCommand (set_text name value) false) (inr r)].
Proof.
  intros H. apply traces_ok_bind in H as (a & t1 & t2 & -> & H1 & H). apply traces_ok_ret in H as [-> _].
  apply ok_command in H1. subst t1. exists a. reflexivity.
Qed.

Ltac okb H a t' H1 := apply traces_ok_bind in H; destruct H as (a & t' & ? & -> & H1 & H).
Ltac okc H t' := let a := fresh "a" in let H1 := fresh "H1" in
  apply traces_ok_bind in H; destruct H as (a & t' & ? & -> & H1 & H); first [apply ok_command in H1|apply ok_await in H1]; subst t'.
Ltac okl H E := let a := fresh "v" in let t' := fresh "t" in let H1 := fresh "H1" in
  apply traces_ok_bind in H; destruct H as (a & t' & ? & -> & H1 & H);
  apply traces_ok_lift in H1; destruct H1 as [-> E]; cbn [app] in H.

Section Cogging.
Variable parse_float : list Z -> res float.
Variable float_str : float -> list Z.
Variable py_sum : list float -> float.

Lemma ok_quiet u t : traces quiet t (Some (inr u)) ->
  exists a b, t = [kanswered (KWrite (lit "tel stop")) (inr tt); kanswered KFlush (inr a);
                   kanswered (KCommand (lit "d stop") false) (inr b)].
Proof.
  unfold quiet. intros H. okc H t1. okc H t2. okc H t3. apply traces_ok_ret in H as [-> _].
  repeat match goal with a : krep _ |- _ => cbn in a end. destruct a. do 2 eexists. reflexivity.
Qed.

Lemma ok_get name x t : traces (get_double parse_float name) t (Some (inr x)) ->
  exists reply, t = [kanswered (KCommand (lit "conf get " ++ name) true) (inr reply)] /\ parse_float reply = Ok x.
Proof.
  unfold get_double. intros H. okc H t1. okl H E. apply traces_ok_lift in H as [-> H].
  exists a. split; [reflexivity|]. unfold ascii in E. destruct (forallb _ _); [|discriminate].
  injection E as <-. exact H.
Qed.

Lemma ok_can channel u t : traces (can_compensate_encoder parse_float channel) t (Some (inr (Some u))) ->
  exists ss r, t = [kanswered KSources (inr ss);
                  kanswered (KCommand (lit "conf get " ++ source channel (lit "type")) true) (inr r)].
Proof.
  unfold can_compensate_encoder. intros H. okc H t1. okl H E. destruct (negb _).
  - apply traces_ok_ret in H as [_ H]. discriminate.
  - okb H x t2 H1. apply ok_get in H1 as (r & -> & _). destruct (feqb _ _); apply traces_ok_ret in H as [-> H]; [discriminate|].
    do 2 eexists. reflexivity.
Qed.

Definition split_text (options : list Z) (n i : Z) : list Z := hstart options (split_str float_str i n).

Lemma ok_capture options n time : forall splits values t,
  traces (capture_splits parse_float float_str options n time splits) t (Some (inr values)) ->
  texts t = flat_map (fun i => [split_text options n i; lit "d hend"]) splits /\
  length (histograms t) = length splits /\
  exists rows, map_res (hist_rows parse_float) (histograms t) = Ok rows /\ values = concat rows.
Proof.
  induction splits as [|i splits IH]; intros values t H; cbn [capture_splits] in H.
  - apply traces_ok_ret in H as [-> <-]. cbn. repeat split. exists []. auto.
  - okc H t1. okc H t2. okc H t3. okl H E. okb H r t4 H1. apply traces_ok_ret in H as [-> <-].
    apply IH in H1 as (T & L & rows & R & ->). rewrite app_nil_r. cbn [app].
    assert (N : bytes_eqb (split_text options n i) (lit "d hend") = false) by reflexivity.
    fold (split_text options n i). rewrite !texts_cons, !histograms_cons, N.
    split; [|split].
    + cbn [flat_map]. rewrite <- T. reflexivity.
    + cbn [length]. rewrite <- L. reflexivity.
    + exists (v :: rows). split; [|reflexivity]. change (bytes_eqb (lit "d hend") (lit "d hend")) with true.
      cbn [app map_res]. rewrite E, R. reflexivity.
Qed.

Lemma split_part options n i : split_text options n i = part_text float_str options n i.
Proof. unfold split_text, hstart, split_str, part_text. destruct (n >? 1); [reflexivity|]. reflexivity. Qed.

Lemma range_parts options n m : forall i,
  flat_map (fun j => [split_text options n j; lit "d hend"]) (map (fun k => i + Z.of_nat k) (seq 0 m)) =
  part_texts float_str options n i m.
Proof.
  induction m as [|m IH]; intros i; [reflexivity|]. cbn [seq map flat_map part_texts].
  rewrite Z.add_0_r, split_part. change (?x :: ?y :: ?l) with ([x; y] ++ l). cbn [app]. do 2 f_equal.
  rewrite <- IH, <- seq_shift, map_map. f_equal. apply map_ext. intros k. lia.
Qed.

Lemma capture_texts options n time values t :
  traces (capture_histogram parse_float float_str options n time) t (Some (inr values)) ->
  texts t = part_texts float_str options n 0 (Z.to_nat n) /\ length (histograms t) = Z.to_nat n /\
  exists rows, map_res (hist_rows parse_float) (histograms t) = Ok rows /\ values = concat rows.
Proof.
  intros H. apply ok_capture in H as (T & L & R). unfold py_range in *. rewrite Z.sub_0_r in *.
  rewrite (range_parts options n (Z.to_nat n) 0) in T. rewrite map_length, seq_length in L. auto.
Qed.

Lemma ok_direction a speed ratio v values t :
  traces (one_direction parse_float float_str a speed ratio v) t (Some (inr (Some values))) ->
  texts t = direction_texts float_str (cg_split_count a) ratio v /\ length (histograms t) = Z.to_nat (cg_split_count a) /\
  Forall (fun x => isfinite x = true) values /\
  (exists rows, map_res (hist_rows parse_float) (histograms t) = Ok rows /\ values = concat rows) /\
  exists t' r, t = t' ++ [kanswered (KCommand (lit "d stop") false) (inr r); kanswered (KSleep (float_of_Z 2)) (inr tt)].
Proof.
  unfold one_direction. intros H. okc H t1. okc H t2. okl H Ea. okl H Eb. okb H vs t3 H1.
  apply capture_texts in H1 as (T & L & R). okc H t4. okc H t5.
  destruct (existsb _ _) eqn:F; apply traces_ok_ret in H as [-> H]; [discriminate|]. injection H as ->.
  assert (N : forall w, bytes_eqb (lit "d pos nan " ++ w) (lit "d hend") = false) by reflexivity.
  split; [|split; [|split; [|split]]].
  - rewrite ?texts_app. cbn [app]. rewrite ?texts_cons. unfold direction_texts. rewrite <- T. cbn. rewrite <- ?app_assoc. reflexivity.
  - rewrite ?histograms_app. cbn [app]. rewrite ?histograms_cons, N. cbn. rewrite app_nil_r. exact L.
  - rewrite Forall_forall. intros x I. destruct (isfinite x) eqn:Fx; [reflexivity|].
    assert (existsb (fun x => negb (isfinite x)) values = true) by (apply existsb_exists; exists x; now rewrite Fx). congruence.
  - rewrite ?histograms_app. cbn [app]. rewrite ?histograms_cons, N. cbn. rewrite app_nil_r. exact R.
  - repeat match goal with a : krep _ |- _ => cbn in a end. destruct a3.
    exists (kanswered (KCommand (lit "d pos nan " ++ float_str (fmul v ratio) ++ lit " nan a4") false) (inr a0)
            :: kanswered (KSleep (float_of_Z 2)) (inr a1) :: t3). eexists. reflexivity.
Qed.

(** ** The pieces *)
Lemma slice_next {A} (l : list A) a b : 0 <= a <= b -> firstn (Z.to_nat a) l ++ slice a b l = firstn (Z.to_nat b) l.
Proof.
  intros H. unfold slice. replace (Z.to_nat b) with (Z.to_nat a + Z.to_nat (b - a))%nat by lia.
  rewrite <- (firstn_skipn (Z.to_nat a) (firstn (Z.to_nat a + _) l)). f_equal.
  - rewrite firstn_firstn. f_equal. lia.
  - rewrite skipn_firstn_comm. f_equal. lia.
Qed.

Lemma range_snoc m : py_range 0 (Z.of_nat (S m)) = py_range 0 (Z.of_nat m) ++ [Z.of_nat m].
Proof.
  unfold py_range. rewrite !Z.sub_0_r, !Nat2Z.id, seq_S, map_app. reflexivity.
Qed.

Lemma concat_slices {A} (b : Z -> Z) (l : list A) m : b 0 = 0 -> (forall i, 0 <= i -> 0 <= b i <= b (i + 1)) ->
  concat (map (fun i => slice (b i) (b (i + 1)) l) (py_range 0 (Z.of_nat m))) = firstn (Z.to_nat (b (Z.of_nat m))) l.
Proof.
  intros B0 B. induction m as [|m IH]; [cbn; now rewrite B0|].
  rewrite range_snoc, map_app, concat_app, IH. cbn [map concat]. rewrite app_nil_r.
  replace (Z.of_nat (S m)) with (Z.of_nat m + 1) by lia. apply slice_next, B. lia.
Qed.

Definition edge (n i : Z) : Z := i * n / 1024.
Lemma edge_step n i : 0 <= n -> 0 <= i ->
  0 <= edge n i /\ n / 1024 <= edge n (i + 1) - edge n i <= n / 1024 + 1.
Proof.
  intros N I. unfold edge. pose proof (Z.div_mod n 1024 ltac:(lia)) as D. pose proof (Z.mod_pos_bound n 1024 ltac:(lia)) as M.
  set (q := n / 1024) in *. set (r := n mod 1024) in *.
  replace (i * n) with (i * r + (i * q) * 1024) by (rewrite D; ring).
  replace ((i + 1) * n) with ((i * r + r) + (i * q + q) * 1024) by (rewrite D; ring).
  rewrite !Z.div_add by lia. assert (0 <= i * r) by nia. assert (0 <= i * q) by (apply Z.mul_nonneg_nonneg; [lia|apply Z.div_pos; lia]).
  set (A := i * r) in *. set (Q := i * q) in *. split; [|lia]. pose proof (Z.div_pos A 1024). lia.
Qed.

Definition cut (l : list float) : list (list float) :=
  map (fun i => slice (edge (Z.of_nat (length l)) i) (edge (Z.of_nat (length l)) (i + 1)) l) (py_range 0 1024).

Lemma in_range x a b : In x (py_range a b) -> a <= x < b.
Proof. unfold py_range. rewrite in_map_iff. intros (k & <- & H). apply in_seq in H. lia. Qed.
Lemma nth_range i n : (Z.of_nat i < n) -> nth_error (py_range 0 n) i = Some (Z.of_nat i).
Proof.
  intros H. unfold py_range. rewrite nth_error_map, (nth_error_nth' _ 0%nat) by (rewrite seq_length; lia).
  rewrite seq_nth by lia. reflexivity.
Qed.
Lemma length_range n : 0 <= n -> Z.of_nat (length (py_range 0 n)) = n.
Proof. unfold py_range. rewrite map_length, seq_length. lia. Qed.

Lemma slice_length {A} (l : list A) a b : 0 <= a <= b -> b <= Z.of_nat (length l) ->
  Z.of_nat (length (slice a b l)) = b - a.
Proof. intros H B. unfold slice. rewrite firstn_length, skipn_length. lia. Qed.

Lemma edge_top n i : 0 <= n -> 0 <= i <= 1024 -> edge n i <= n.
Proof. intros N I. unfold edge. apply Z.div_le_upper_bound; nia. Qed.

Lemma cut_pieces l : pieces l (cut l).
Proof.
  set (n := Z.of_nat (length l)). assert (N : 0 <= n) by (unfold n; lia). split; [|split].
  - unfold cut. fold n. pose proof (concat_slices (edge n) l (Z.to_nat 1024)) as C. rewrite Z2Nat.id in C by lia.
    rewrite C; [|reflexivity|intros i I; pose proof (edge_step n i N I); assert (0 <= n / 1024) by (apply Z.div_pos; lia); lia].
    unfold edge. rewrite Z.mul_comm, Z.div_mul by lia.
    apply firstn_all2. unfold n. lia.
  - unfold cut. rewrite map_length, length_range; lia.
  - unfold cut. fold n. intros p H. apply in_map_iff in H as (i & <- & H). apply in_range in H.
    destruct (edge_step n i N) as [E1 E2]; [lia|]. assert (0 <= n / 1024) by (apply Z.div_pos; lia).
    pose proof (edge_top n (i + 1) N). rewrite slice_length; lia.
Qed.

Lemma nth_cut l i : (i < 1024)%nat -> nth_error (cut l) i =
  Some (slice (edge (Z.of_nat (length l)) (Z.of_nat i)) (edge (Z.of_nat (length l)) (Z.of_nat i + 1)) l).
Proof. intros H. unfold cut. rewrite nth_error_map, nth_range by lia. reflexivity. Qed.

Lemma float_div_ok x y z : float_div x y = Ok z -> z = fdiv x y.
Proof. unfold float_div. destruct (feqb _ _); [discriminate|]. intros H. now injection H as <-. Qed.

Lemma average_spec reverse forward average : cogging_average py_sum reverse forward = Ok average ->
  averages py_sum reverse forward average.
Proof.
  unfold cogging_average. destruct (negb _) eqn:L; [discriminate|]. intros H.
  apply map_res_spec in H as [LA H]. pose proof (length_range COGGING_TABLE_SIZE ltac:(unfold COGGING_TABLE_SIZE; lia)) as LR.
  exists (cut reverse), (cut forward). split; [apply cut_pieces|]. split; [apply cut_pieces|]. split; [unfold COGGING_TABLE_SIZE in *; lia|].
  intros i r f a R F A. assert (I : (i < 1024)%nat).
  { assert (i < length average)%nat by (apply nth_error_Some; congruence). unfold COGGING_TABLE_SIZE in *. lia. }
  rewrite nth_cut in R, F by exact I.
  assert (R' : slice (edge (Z.of_nat (length reverse)) (Z.of_nat i)) (edge (Z.of_nat (length reverse)) (Z.of_nat i + 1)) reverse = r) by congruence.
  assert (F' : slice (edge (Z.of_nat (length forward)) (Z.of_nat i)) (edge (Z.of_nat (length forward)) (Z.of_nat i + 1)) forward = f) by congruence.
  clear R F. assert (LE : length forward = length reverse) by lia.
  assert (LS : length r = length f) by (subst r f; unfold slice; rewrite !firstn_length, !skipn_length, LE; reflexivity).
  split; [exact LS|].
  destruct (H i (Z.of_nat i)) as (x & X & W); [apply nth_range; unfold COGGING_TABLE_SIZE; lia|].
  assert (x = a) by congruence. subst x. unfold window_average in W. apply float_div_ok in W.
  change COGGING_TABLE_SIZE with 1024 in W. fold (edge (Z.of_nat (length reverse)) (Z.of_nat i)) in W.
  fold (edge (Z.of_nat (length reverse)) (Z.of_nat i + 1)) in W. rewrite R' in W. rewrite LE in F'. rewrite F' in W. rewrite W.
  f_equal. f_equal. lia.
Qed.

(** ** The table in steps *)
Lemma map_res_all {A B} (f : A -> res B) (P : A -> B -> Prop) l : (forall x, In x l -> exists y, f x = Ok y /\ P x y) ->
  exists ys, map_res f l = Ok ys /\ Forall2 P l ys.
Proof.
  induction l as [|x l IH]; intros H; cbn [map_res]; [exists []; auto|].
  destruct (H x (or_introl eq_refl)) as (y & E & Py). destruct IH as (ys & E' & F); [intros; apply H; now right|].
  exists (y :: ys). rewrite E. cbn. rewrite E'. auto.
Qed.

Lemma close_weaken s x d : (0 < s)%R -> (Rabs (IZR d * s - x) <= s * (1 + bpow radix2 (-46)))%R ->
  (Rabs (IZR d * s - x) <= s * (1 + bpow radix2 (-45)))%R.
Proof.
  intros P H. eapply Rle_trans; [exact H|]. apply Rmult_le_compat_l; [lra|]. apply Rplus_le_compat_l. apply bpow_le. lia.
Qed.

(** The entries of a usable table fit into 8 bits, and each is within a step of the average;
    a step is a 127th of the greatest, which is 126 or 127 steps. *)
Theorem C71_steps average : usable average ->
  exists scale ds M, cogging_scaled average = Ok (scale, ds) /\
    in_steps (F2 scale) average ds /\ greatest average M /\
    (Rabs (F2 scale - M / 127) <= bpow radix2 (-53) * (M / 127))%R /\
    forall i x d, nth_error average i = Some x -> nth_error ds i = Some d -> Rabs (F2 x) = M -> 126 <= Z.abs d <= 127.
Proof.
  intros [N (x0 & I0 & B0)]. destruct (two_sided average N) as (hi & lo & Eh & El & Nm & (xm & Im & Am) & G).
  { intros ->. inversion I0. }
  set (M := fmax2 (SFabs hi) (SFabs lo)) in *. destruct Nm as [Om Fm].
  assert (L : (bpow radix2 (-1015) <= F2 M)%R).
  { apply Rle_trans with (bpow radix2 (-1000)); [apply bpow_le; lia|]. specialize (G x0 I0). lra. }
  destruct (step_scale M Om Fm L) as (Os & Fs & Ps & R). set (scale := fdiv M (float_of_Z 127)) in *.
  destruct (map_res_all (fun x => let* q := float_div x scale in py_int q)
              (fun x d => (-127 <= d <= 127 /\ (Rabs (IZR d * F2 scale - F2 x) <= F2 scale * (1 + bpow radix2 (-45)))%R) /\
                          (Rabs (F2 x) = F2 M -> 126 <= Z.abs d))
              average) as (ds & Ed & F).
  { intros x I. rewrite Forall_forall in N. destruct (N x I) as [Ox Fx].
    destruct (step_quotient M x Om Fm L Ox Fx (G x I)) as (d & D1 & D2 & D3 & D4). exists d. fold scale in D1, D3.
    split; [exact D1|]. split; [|exact D4]. split; [lia|]. now apply close_weaken. }
  exists scale, ds, (F2 M). split; [|split; [|split; [|split]]].
  - unfold cogging_scaled. rewrite Eh, El. cbn [bind]. fold M. unfold float_div at 1.
    rewrite feqb_zero; [|apply float_of_Z_ok|reflexivity|rewrite (proj1 F2_127); lra]. cbn [bind]. fold scale.
    rewrite Ed. reflexivity.
  - unfold in_steps. clear - F. induction F as [|x d l ds [H _] _ IH]; constructor; auto.
  - split; [exists xm; auto|exact G].
  - exact R.
  - intros i x d X D A. assert (Q : -127 <= d <= 127 /\ (Rabs (F2 x) = F2 M -> 126 <= Z.abs d)).
    { clear - F X D. revert i X D. induction F as [|x' d' l ds [[H _] H'] _ IH]; intros [|i] X D; cbn in *; try discriminate.
      - injection X as ->. injection D as ->. auto.
      - eauto. }
    destruct Q as [Q1 Q2]. specialize (Q2 A). lia.
Qed.

(** ** Lines of a histogram *)
Lemma word_no (w : list Z) : word w -> ~ In 10 w /\ ~ In 32 w /\ forallb (fun b => (0 <=? b) && (b <=? 127)) w = true /\
  Forall (fun c => str_space c = false) w.
Proof.
  intros [_ F]. rewrite Forall_forall in F. repeat split.
  - intros H. apply F in H. lia.
  - intros H. apply F in H. lia.
  - apply forallb_forall. intros c H. apply F in H. lia.
  - apply Forall_forall. intros c H. apply F in H. unfold str_space, is_space. lia.
Qed.

Lemma split_on_none c (w : list Z) : ~ In c w -> split_on c w = [w].
Proof.
  induction w as [|x w IH]; intros H; [reflexivity|]. cbn [split_on].
  destruct (x =? c) eqn:E; [elim H; left; lia|]. rewrite IH; [reflexivity|]. intros I. apply H. now right.
Qed.
Lemma split_on_first c (w r : list Z) : ~ In c w -> split_on c (w ++ c :: r) = w :: split_on c r.
Proof.
  induction w as [|x w IH]; intros H; cbn [app split_on].
  - now rewrite Z.eqb_refl.
  - destruct (x =? c) eqn:E; [elim H; left; lia|]. rewrite IH; [reflexivity|]. intros I. apply H. now right.
Qed.

Lemma drop_word c w : str_space c = false -> str_drop (c :: w) = c :: w.
Proof. intros H. cbn [str_drop]. now rewrite H. Qed.
Lemma strip_two (x y : list Z) : word x -> word y -> str_strip (x ++ [32] ++ y) = x ++ [32] ++ y.
Proof.
  intros Wx Wy. destruct (word_no x Wx) as (_ & _ & _ & Sx). destruct (word_no y Wy) as (_ & _ & _ & Sy).
  destruct Wx as [Nx _]. destruct Wy as [Ny _]. destruct x as [|c x]; [congruence|]. inversion Sx as [|? ? Sc _]; subst.
  unfold str_strip. cbn [app]. rewrite drop_word by exact Sc.
  destruct (exists_last Ny) as (y' & d & ->). apply Forall_app in Sy as [_ Sd]. inversion Sd as [|? ? Sd' _]; subst.
  assert (E : rev (c :: x ++ [32] ++ y' ++ [d]) = d :: rev (c :: x ++ [32] ++ y')).
  { rewrite !app_comm_cons, !app_assoc, rev_app_distr. reflexivity. }
  change (c :: x ++ 32 :: y' ++ [d]) with (c :: x ++ [32] ++ y' ++ [d]). rewrite E, drop_word by exact Sd'.
  rewrite <- E, rev_involutive. reflexivity.
Qed.

(** The second numbers of the lines are what is recorded. *)
Theorem C71_rows text ys : histogram parse_float text ys -> hist_rows parse_float text = Ok ys.
Proof.
  intros H. unfold hist_rows.
  assert (A : ascii text = Ok text).
  { unfold ascii. replace (forallb _ text) with true; [reflexivity|]. symmetry.
    induction H as [|x y vx vy rest ys Wx Wy _ _ _ IH]; [reflexivity|].
    rewrite !forallb_app, IH. destruct (word_no x Wx) as (_ & _ & -> & _). destruct (word_no y Wy) as (_ & _ & -> & _). reflexivity. }
  rewrite A. cbn [bind]. clear A.
  induction H as [|x y vx vy rest ys Wx Wy Px Py _ IH]; [reflexivity|].
  replace (x ++ [32] ++ y ++ [10] ++ rest) with ((x ++ [32] ++ y) ++ 10 :: rest) by (rewrite <- !app_assoc; reflexivity).
  destruct (word_no x Wx) as (X10 & X32 & _ & _). destruct (word_no y Wy) as (Y10 & Y32 & _ & _).
  rewrite split_on_first.
  - cbn [filter]. rewrite strip_two by assumption. rewrite app_length. cbn [length app].
    replace (length x + S (length y) =? 0)%nat with false by lia. cbn [negb map_res]. unfold hist_row at 1.
    change (32 :: y) with ([32] ++ y). rewrite strip_two by assumption. cbn [app]. rewrite split_on_first by exact X32.
    rewrite split_on_none by exact Y32. cbn [map_res]. rewrite Px, Py. cbn [bind]. cbn [py_index].
    unfold py_index. cbn. rewrite IH. reflexivity.
  - rewrite !in_app_iff. cbn. intros [?|[?|?]]; [auto|destruct H as [H|[]]; lia|auto].
Qed.

(** ** A whole run *)
Lemma ok_main a t : traces (cogging_main parse_float float_str py_sum a) t (Some (inr (Some tt))) ->
  exists t0 t1 t2 channel reply p n reverse forward average,
    t = t0 ++ t1 ++ [kanswered (KSave (Some reverse) (Some forward)) (inr tt)] ++ t2 /\
    texts t0 = opening channel /\ histograms t0 = [] /\ Forall (fun e => ~ starts e) t0 /\
    In (kanswered (KCommand (lit "conf get motor.poles") true) (inr reply)) t0 /\ parse_float reply = Ok p /\ py_int p = Ok n /\
    traces (read_data parse_float float_str a (fdiv (cg_speed a) (float_of_Z n))) t1 (Some (inr (Some (Some reverse, Some forward)))) /\
    cogging_average py_sum reverse forward = Ok average /\
    if cg_store a then exists u, traces (cogging_store float_str average) t2 (Some (inr u)) else t2 = [].
Proof.
  unfold cogging_main. intros H. okb H u t1 H1. apply ok_quiet in H1 as (q1 & q2 & ->).
  okb H p t2 H1. apply ok_get in H1 as (rp & -> & Pp). okl H En.
  okb H c t3 H1. apply ok_get in H1 as (rc & -> & Pc). okl H Ec.
  okb H r t4 H1. destruct r as [r|]; [|apply traces_ok_ret in H as [_ H]; discriminate].
  apply ok_can in H1 as (ss & rt & ->). okl H Es. okb H d t5 H1.
  destruct d as [[reverse forward]|]; [|apply traces_ok_ret in H as [_ H]; discriminate].
  okc H t6. okl H Er. okl H Ef. okl H Ea.
  destruct reverse as [reverse|]; [|discriminate]. destruct forward as [forward|]; [|discriminate].
  injection Er as ->. injection Ef as ->. apply float_div_ok in Es. subst v1.
  destruct a0.
  match type of H with traces _ ?l _ => rename l into tl end.
  exists [kanswered (KWrite (lit "tel stop")) (inr tt); kanswered KFlush (inr q1); kanswered (KCommand (lit "d stop") false) (inr q2);
          kanswered (KCommand (lit "conf get motor.poles") true) (inr rp);
          kanswered (KCommand (lit "conf get motor_position.commutation_source") true) (inr rc);
          kanswered KSources (inr ss); kanswered (KCommand (lit "conf get " ++ source v0 (lit "type")) true) (inr rt)].
  exists t5, tl, v0, rp, p, v, v2, v3, v4.
  split; [reflexivity|]. split; [reflexivity|]. split; [reflexivity|]. split.
  { repeat constructor; intros S; cbn in S; try tauto; destruct S as [[w S]|[w S]]; discriminate. }
  split; [cbn; auto|]. split; [exact Pp|]. split; [exact En|]. split; [exact H1|]. split; [exact Ea|].
  destruct (cg_store a).
  - okb H w t7 H2. apply traces_ok_ret in H as [-> _]. rewrite app_nil_r. eauto.
  - now apply traces_ok_ret in H as [-> _].
Qed.

Lemma ok_store average u t : traces (cogging_store float_str average) t (Some (inr u)) ->
  exists scale ds, cogging_scaled average = Ok (scale, ds) /\
    texts t = storing_texts float_str scale ds /\
    Forall (fun e => exists text reply, e = kanswered (KCommand text false) (inr reply)) t.
Proof.
  unfold cogging_store. intros H. okl H Es. destruct v as [scale ds]. exists scale, ds. split; [exact Es|].
  okb H u1 t1 H1. apply ok_set in H1 as (r & ->). okb H u2 t2 H2. okc H t3. apply traces_ok_ret in H as [-> _].
  assert (G : forall ds i t w, traces (each_from i (fun i d => kset (lit "motor.cogging_dq_comp." ++ int_str i) (int_str d)) ds) t (Some (inr w)) ->
            texts t = numbered (lit "motor.cogging_dq_comp.") i (map int_str ds) /\
            Forall (fun e => exists text reply, e = kanswered (KCommand text false) (inr reply)) t).
  { clear. induction ds as [|d ds IH]; intros i t w H; cbn [each_from] in H.
    - apply traces_ok_ret in H as [-> _]. split; [reflexivity|constructor].
    - okb H x t1 H1. apply ok_set in H1 as (r & ->). apply IH in H as [T F]. split.
      + cbn [app]. rewrite texts_cons, T. reflexivity.
      + constructor; [eauto|exact F]. }
  apply G in H2 as [T F]. split.
  - cbn [app]. rewrite texts_cons, texts_app, T. reflexivity.
  - cbn [app]. constructor; [eauto|]. apply Forall_app. split; [exact F|]. constructor; [eauto|constructor].
Qed.

Lemma ok_read a speed data t : cg_input a = None ->
  traces (read_data parse_float float_str a speed) t (Some (inr (Some data))) ->
  exists rlo rhi rr lo hi ratio t0 t1 t2 t3 v1 v2, t = t0 ++ t1 ++ t2 ++ t3 /\
    parse_float rlo = Ok lo /\ parse_float rhi = Ok hi /\ parse_float rr = Ok ratio /\
    (exists s a b, t0 = [s; kanswered (KCommand (lit "conf get servopos.position_min") true) (inr rlo);
       kanswered (KCommand (lit "conf get servopos.position_max") true) (inr rhi);
       kanswered (KCommand (lit "conf get motor_position.rotor_to_output_ratio") true) (inr rr);
       kanswered (KCommand (set_text (lit "servopos.position_min") (lit "nan")) false) (inr a);
       kanswered (KCommand (set_text (lit "servopos.position_max") (lit "nan")) false) (inr b)] /\
       s = kanswered (KSleep (float_of_Z 3)) (inr tt)) /\
    traces (one_direction parse_float float_str a speed ratio (fneg speed)) t1 (Some (inr (Some v1))) /\
    traces (one_direction parse_float float_str a speed ratio speed) t2 (Some (inr (Some v2))) /\
    (exists a b, t3 = [kanswered (KCommand (set_text (lit "servopos.position_min") (float_str lo)) false) (inr a);
       kanswered (KCommand (set_text (lit "servopos.position_max") (float_str hi)) false) (inr b)]) /\
    data = keep speed v2 (keep (fneg speed) v1 (None, None)).
Proof.
  unfold read_data. intros -> H. okl H Ediv. okc H t1. okb H lo t2 H1. apply ok_get in H1 as (rlo & -> & Plo).
  okb H hi t3 H1. apply ok_get in H1 as (rhi & -> & Phi). okb H ratio t4 H1. apply ok_get in H1 as (rr & -> & Pr).
  okc H t5. okc H t6. okb H o1 t7 H1. destruct o1 as [v1|]; [|apply traces_ok_ret in H as [_ H]; discriminate].
  okb H o2 t8 H2. destruct o2 as [v2|]; [|apply traces_ok_ret in H as [_ H]; discriminate].
  okb H u t9 H3. apply ok_set in H3 as (ra & ->). okb H u' t9 H3. apply ok_set in H3 as (rb & ->).
  apply traces_ok_ret in H as [-> H]. injection H as <-.
  repeat match goal with a : krep _ |- _ => cbn in a end. destruct a0.
  exists rlo, rhi, rr, lo, hi, ratio, [kanswered (KSleep (float_of_Z 3)) (inr tt); kanswered (KCommand (lit "conf get servopos.position_min") true) (inr rlo);
       kanswered (KCommand (lit "conf get servopos.position_max") true) (inr rhi);
       kanswered (KCommand (lit "conf get motor_position.rotor_to_output_ratio") true) (inr rr);
       kanswered (KCommand (set_text (lit "servopos.position_min") (lit "nan")) false) (inr a1);
       kanswered (KCommand (set_text (lit "servopos.position_max") (lit "nan")) false) (inr a2)].
  exists t7, t8. eexists. exists v1, v2. split; [reflexivity|]. do 3 (split; [assumption|]). split; [do 3 eexists; split; reflexivity|].
  split; [exact H1|]. split; [exact H2|]. split; [do 2 eexists; reflexivity|reflexivity].
Qed.

(** ** The theorems *)

(** What a run that ends well has sent, from first to last. *)
Theorem C71_sent a t : traces (cogging_main parse_float float_str py_sum a) t (Some (inr (Some tt))) ->
  exists channel reply p n average scale ds,
    told (lit "motor.poles") reply t /\ parse_float reply = Ok p /\ py_int p = Ok n /\
    let speed := fdiv (cg_speed a) (float_of_Z n) in
    (cg_store a = true -> usable average -> in_steps (F2 scale) average ds) /\
    (exists reverse forward, In (kanswered (KSave (Some reverse) (Some forward)) (inr tt)) t /\
       averages py_sum reverse forward average /\
       forall given, cg_input a = Some given -> given = Ok (reverse, forward)) /\
    exists recorded, texts t = opening channel ++ recorded ++ (if cg_store a then storing_texts float_str scale ds else []) /\
      match cg_input a with
      | Some _ => recorded = []
      | None => exists rlo rhi rr lo hi ratio,
          told (lit "servopos.position_min") rlo t /\ parse_float rlo = Ok lo /\
          told (lit "servopos.position_max") rhi t /\ parse_float rhi = Ok hi /\
          told (lit "motor_position.rotor_to_output_ratio") rr t /\ parse_float rr = Ok ratio /\
          recorded = recording_texts float_str (cg_split_count a) ratio speed lo hi
      end.
Proof.
  intros H. apply ok_main in H as (t0 & t1 & t2 & ch & reply & p & n & reverse & forward & average & -> & T0 & _ & _ & I & P & N & R & A & S).
  assert (X : exists scale ds, (cg_store a = true -> cogging_scaled average = Ok (scale, ds)) /\
              texts t2 = if cg_store a then storing_texts float_str scale ds else []).
  { destruct (cg_store a); [|subst t2; exists fnan, []; split; [discriminate|reflexivity]].
    destruct S as [u S]. apply ok_store in S as (sc & ds & Es & T & _). exists sc, ds. auto. }
  destruct X as (scale & ds & X1 & X2). exists ch, reply, p, n, average, scale, ds.
  assert (TA : forall name r l, In (kanswered (KCommand (lit "conf get " ++ name) true) (inr r)) l ->
               forall l1 l2, told name r (l1 ++ l ++ l2)).
  { intros name r l J l1 l2. unfold told. rewrite !in_app_iff. auto. }
  split; [apply (TA _ _ _ I [])|]. split; [exact P|]. split; [exact N|]. cbv zeta. split.
  { intros St U. destruct (C71_steps average U) as (sc & ds' & M & Es & I' & _). rewrite X1 in Es by exact St. injection Es as -> ->. exact I'. }
  split.
  { exists reverse, forward. split; [rewrite !in_app_iff; cbn; auto|]. split; [now apply average_spec|].
    intros given G. unfold read_data in R. rewrite G in R. okl R Eg. apply traces_ok_ret in R as [_ R].
    injection R as <- <-. rewrite Eg. now destruct v. }
  exists (texts t1). rewrite !texts_app, T0, X2. split; [reflexivity|].
  destruct (cg_input a) as [given|] eqn:G.
  - unfold read_data in R. rewrite G in R. okl R Eg. apply traces_ok_ret in R as [-> _]. reflexivity.
  - apply ok_read in R as (rlo & rhi & rr & lo & hi & ratio & u0 & u1 & u2 & u3 & v1 & v2 & -> & Plo & Phi & Pr & (s & x & y & -> & ->) & D1 & D2 & (z & w & ->) & _);
      [|exact G].
    apply ok_direction in D1 as (D1 & _). apply ok_direction in D2 as (D2 & _).
    exists rlo, rhi, rr, lo, hi, ratio.
    split; [unfold told; rewrite !in_app_iff; cbn; tauto|]. split; [exact Plo|].
    split; [unfold told; rewrite !in_app_iff; cbn; tauto|]. split; [exact Phi|].
    split; [unfold told; rewrite !in_app_iff; cbn; tauto|]. split; [exact Pr|].
    rewrite !texts_app, D1, D2. reflexivity.
Qed.

(** What is saved is what the histograms told, in order; the first half of them belongs to one
    direction, the second to the other. *)
Theorem C71_recorded a t : cg_input a = None -> 0 <= cg_split_count a ->
  traces (cogging_main parse_float float_str py_sum a) t (Some (inr (Some tt))) ->
  exists reply p n reverse forward h1 h2,
    told (lit "motor.poles") reply t /\ parse_float reply = Ok p /\ py_int p = Ok n /\
    In (kanswered (KSave (Some reverse) (Some forward)) (inr tt)) t /\
    Forall (fun x => isfinite x = true) (reverse ++ forward) /\
    histograms t = h1 ++ h2 /\ Z.of_nat (length h1) = cg_split_count a /\ Z.of_nat (length h2) = cg_split_count a /\
    forall y1 y2, Forall2 (histogram parse_float) h1 y1 -> Forall2 (histogram parse_float) h2 y2 ->
      let speed := fdiv (cg_speed a) (float_of_Z n) in
      fltb (float_of_Z 0) speed = true /\ reverse = concat y1 /\ forward = concat y2 \/
      fltb speed (float_of_Z 0) = true /\ forward = concat y1 /\ reverse = concat y2.
Proof.
  intros G Pos H. apply ok_main in H as (t0 & t1 & t2 & ch & reply & p & n & reverse & forward & average & -> & _ & H0 & _ & I & P & N & R & A & S).
  assert (H2 : histograms t2 = []).
  { destruct (cg_store a); [|now subst t2]. destruct S as [u S]. apply ok_store in S as (sc & ds & Es & T & F).
    assert (NH : Forall (fun x => bytes_eqb x (lit "d hend") = false) (texts t2)).
    { rewrite T. unfold storing_texts. constructor; [reflexivity|]. apply Forall_app. split; [|repeat constructor].
      clear. generalize (map int_str ds). generalize 0. intros i l. revert i. induction l; intros i; cbn [numbered]; constructor; auto. }
    clear - F NH. induction F as [|e t (x & r & ->) _ IH]; [reflexivity|]. rewrite texts_cons in NH.
    apply (Forall_app _ [x]) in NH as [NH1 NH2]. apply Forall_inv in NH1.
    rewrite histograms_cons. rewrite NH1. now apply IH. }
  apply ok_read in R as (rlo & rhi & rr & lo & hi & ratio & u0 & u1 & u2 & u3 & v1 & v2 & -> & Plo & Phi & Pr & (s & x & y & -> & ->) & D1 & D2 & (z & w & ->) & K);
    [|exact G].
  apply ok_direction in D1 as (_ & L1 & F1 & (r1 & M1 & ->) & _). apply ok_direction in D2 as (_ & L2 & F2 & (r2 & M2 & ->) & _).
  exists reply, p, n, reverse, forward, (histograms u1), (histograms u2).
  split; [unfold told; rewrite !in_app_iff; auto|]. split; [exact P|]. split; [exact N|].
  split; [rewrite !in_app_iff; cbn; tauto|]. split.
  { unfold keep in K. apply Forall_app. destruct (fltb (fdiv (cg_speed a) (float_of_Z n)) _); destruct (fltb (fneg _) _); cbn in K; try discriminate;
      injection K as -> ->; auto. }
  split.
  { rewrite !histograms_app, H0, H2.
    repeat match goal with |- context [histograms (?e :: ?l)] => change (histograms (e :: l)) with (@nil (list Z)) end.
    cbn [app]. rewrite !app_nil_r. reflexivity. }
  split; [lia|]. split; [lia|]. intros y1 y2 Y1 Y2. cbv zeta.
  assert (Q : forall h y r, Forall2 (histogram parse_float) h y -> map_res (hist_rows parse_float) h = Ok r -> r = y).
  { clear - float_str py_sum. intros h y r F. revert r. induction F as [|x y h ys Hx _ IH]; intros r M; cbn in M; [now injection M as <-|].
    rewrite (C71_rows _ _ Hx) in M. cbn in M. destruct (map_res _ h) eqn:E; [|discriminate]. cbn in M. injection M as <-. f_equal. now apply IH. }
  apply (Q _ _ _ Y1) in M1. apply (Q _ _ _ Y2) in M2. subst r1 r2. unfold keep in K.
  generalize dependent (fdiv (cg_speed a) (float_of_Z n)). intros speed K.
  destruct speed as [[]|[]| |[] m e]; cbn in K; try discriminate; injection K as -> ->; auto.
Qed.

(** ** The limits, and the motor at rest *)
Lemma stopped_app t u : stopped t -> stopped u -> stopped (t ++ u).
Proof.
  intros T U t1 e t2 E S. apply app_eq_app in E as (m & [[-> E]|[-> E]]).
  - destruct m as [|e' m]; cbn in E.
    + apply (U [] e t2); [now symmetry|exact S].
    + injection E as <- ->. apply Exists_app. left. now apply (T t1 e m).
  - now apply (U m e t2).
Qed.
Lemma stopped_none t : Forall (fun e => ~ starts e) t -> stopped t.
Proof. intros F t1 e t2 -> S. apply Forall_app in F as [_ F]. apply Forall_inv in F. tauto. Qed.
Lemma stopped_then t e1 e2 : stops e1 -> ~ starts e1 -> ~ starts e2 -> stopped (t ++ [e1; e2]).
Proof.
  intros P N1 N2 t1 e t2 E S. apply app_eq_app in E as (m & [[-> E]|[-> E]]).
  - destruct m as [|e' m]; cbn in E.
    + injection E as -> ->. tauto.
    + injection E as <- ->. apply Exists_app. right. now constructor.
  - destruct m as [|e' [|e'' m]]; cbn in E; try discriminate.
    + injection E as <- <-. tauto.
    + injection E as <- <- <-. tauto.
    + injection E as _ _ E. destruct m; discriminate.
Qed.
Lemma stopped_end t r x : stopped (t ++ [kanswered (KCommand (lit "d stop") false) (inr r); kanswered (KSleep x) (inr tt)]).
Proof.
  apply stopped_then.
  - left. exists false, r. reflexivity.
  - intros [[w S]|[w S]]; discriminate.
  - intros [].
Qed.

Definition harmless (e : kev) : Prop :=
  forall text, sent e = Some text -> text = lit "conf write" \/ begins (lit "conf set motor.") text.
Lemma store_harmless average u t : traces (cogging_store float_str average) t (Some (inr u)) ->
  Forall (fun e => ~ starts e) t /\ Forall harmless t.
Proof.
  intros S. apply ok_store in S as (sc & ds & _ & T & F).
  assert (NH : Forall (fun x => x = lit "conf write" \/ begins (lit "conf set motor.") x) (texts t)).
  { rewrite T. unfold storing_texts. constructor; [right; eexists; reflexivity|]. apply Forall_app. split; [|repeat constructor].
    clear. generalize (map int_str ds). generalize 0. intros i l. revert i.
    induction l; intros i; cbn [numbered]; constructor; auto. right. eexists. reflexivity. }
  clear - F NH. induction F as [|e t (x & r & ->) _ IH]; [split; constructor|]. rewrite texts_cons in NH.
  apply (Forall_app _ [x]) in NH as [NH1 NH2]. apply Forall_inv in NH1. destruct (IH NH2) as [A B]. split; constructor; auto.
  - intros S. cbn in S. destruct NH1 as [->|[w ->]], S as [[v S]|[v S]]; discriminate.
  - intros text E. cbn in E. injection E as <-. exact NH1.
Qed.

(** A run that ends well leaves the limits of the position as they were, and the motor stopped. *)
Theorem C71_limits a t : cg_input a = None ->
  traces (cogging_main parse_float float_str py_sum a) t (Some (inr (Some tt))) ->
  exists rlo rhi lo hi,
    told (lit "servopos.position_min") rlo t /\ parse_float rlo = Ok lo /\
    told (lit "servopos.position_max") rhi t /\ parse_float rhi = Ok hi /\
    holds (lit "servopos.position_min") (float_str lo) t /\
    holds (lit "servopos.position_max") (float_str hi) t /\ stopped t.
Proof.
  intros G H. apply ok_main in H as (t0 & t1 & t2 & ch & reply & p & n & reverse & forward & average & -> & _ & _ & N0 & I & P & N & R & A & S).
  assert (X : Forall (fun e => ~ starts e) t2 /\ Forall harmless t2).
  { destruct (cg_store a); [|subst t2; split; constructor]. destruct S as [u S]. eapply store_harmless, S. }
  destruct X as [X1 X2].
  apply ok_read in R as (rlo & rhi & rr & lo & hi & ratio & u0 & u1 & u2 & u3 & v1 & v2 & -> & Plo & Phi & Pr & (s & x & y & -> & ->) & D1 & D2 & (z & w & ->) & _);
    [|exact G].
  apply ok_direction in D1 as (_ & _ & _ & _ & w1 & q1 & ->). apply ok_direction in D2 as (_ & _ & _ & _ & w2 & q2 & ->).
  exists rlo, rhi, lo, hi.
  split; [unfold told; rewrite !in_app_iff; cbn; tauto|]. split; [exact Plo|].
  split; [unfold told; rewrite !in_app_iff; cbn; tauto|]. split; [exact Phi|].
  assert (HM : forall name l, Forall harmless l -> Forall (fun e => forall text, sent e = Some text ->
            ~ begins (set_text (lit "servopos." ++ name) []) text) l).
  { clear. intros name l F. eapply Forall_impl; [|exact F]. intros e He text E [v B]. destruct (He text E) as [->|[v' ->]]; discriminate. }
  split; [|split].
  - match goal with |- holds _ _ (t0 ++ (?u ++ ?v ++ ?w ++ [?a; ?b]) ++ [?c] ++ t2) =>
      exists (t0 ++ u ++ v ++ w), a, (b :: c :: t2) end.
    split; [rewrite <- !app_assoc; reflexivity|]. split; [do 2 eexists; reflexivity|].
    constructor; [intros text E [v B]; cbn [sent question kanswered] in E; injection E as <-; discriminate|].
    constructor; [intros text E; discriminate|]. now apply (HM (lit "position_min")).
  - match goal with |- holds _ _ (t0 ++ (?u ++ ?v ++ ?w ++ [?a; ?b]) ++ [?c] ++ t2) =>
      exists (t0 ++ u ++ v ++ w ++ [a]), b, (c :: t2) end.
    split; [rewrite <- !app_assoc; reflexivity|]. split; [do 2 eexists; reflexivity|].
    constructor; [intros text E; discriminate|]. now apply (HM (lit "position_max")).
  - apply stopped_app; [now apply stopped_none|]. apply stopped_app; [|apply stopped_app; [|now apply stopped_none]].
    + apply stopped_app; [|apply stopped_app; [apply stopped_end|apply stopped_app; [apply stopped_end|]]];
        apply stopped_none; repeat constructor; intros S'; cbn in S'; try tauto; destruct S' as [[v S']|[v S']]; discriminate.
    + apply stopped_none. repeat constructor. intros [].
Qed.

(** ** Without --store *)
Definition keeps (r : kreq) : Prop :=
  match r with
  | KCommand text _ | KWrite text => text <> lit "conf write" /\ ~ begins (lit "conf set motor") text
  | _ => True
  end.
Ltac keep1 := first
  [ apply only_bind; [|intros]
  | apply only_ret | apply only_throw | apply only_lift
  | first [apply only_ask | refine (@only_ask kreq krep keeps (KCommand _ _) _)]; first [exact I | split; [discriminate|intros [? ?]; discriminate]]
  | match goal with |- only _ (match ?x with _ => _ end) => destruct x end
  | match goal with |- only _ (if ?x then _ else _) => destruct x end ].
Lemma keeps_get name : only keeps (get_double parse_float name).
Proof. unfold get_double. repeat keep1. Qed.
Lemma keeps_capture options n time splits : only keeps (capture_splits parse_float float_str options n time splits).
Proof. induction splits as [|i l IH]; cbn [capture_splits]; unfold hstart, kcommand, kawait; repeat first [exact IH|keep1]. Qed.
Lemma keeps_direction a speed scale v : only keeps (one_direction parse_float float_str a speed scale v).
Proof. unfold one_direction, capture_histogram, kcommand, kawait. repeat first [apply keeps_capture|keep1]. Qed.
Lemma keeps_read a speed : only keeps (read_data parse_float float_str a speed).
Proof. unfold read_data, kset, conf_set, kcommand, kawait. repeat first [apply keeps_get|apply keeps_direction|keep1]. Qed.

(** Without --store no run, however it ends, sends "conf write" or sets a parameter of the motor. *)
Theorem C71_unstored a t o : cg_store a = false -> traces (cogging_main parse_float float_str py_sum a) t o ->
  Forall (fun text => text <> lit "conf write" /\ ~ sets (lit "motor") text) (texts t).
Proof.
  intros S H.
  assert (O : only keeps (cogging_main parse_float float_str py_sum a)).
  { unfold cogging_main, quiet, can_compensate_encoder. rewrite S. unfold kcommand, kawait.
    repeat first [apply keeps_get|apply keeps_read|keep1]. }
  apply O in H. clear - H. induction H as [|e t K _ IH]; [constructor|]. rewrite texts_cons. apply Forall_app. split; [|exact IH].
  destruct e as [r x]; destruct r; cbn [sent question] ; repeat constructor; apply K.
Qed.

(** ** When the lengths do, and do not, suit *)
Lemma nonzero_float n : 0 < n <= 2 ^ 53 -> feqb (float_of_Z n) (float_of_Z 0) = false.
Proof.
  intros H. destruct (float_of_Z_correct n) as [B A]; [lia|]. apply feqb_zero.
  - apply float_of_Z_ok.
  - exact B.
  - rewrite A. apply IZR_neq. lia.
Qed.

(** As many values each way, 1024 at least: there is an average. *)
Theorem C71_bins reverse forward : length reverse = length forward -> 1024 <= Z.of_nat (length forward) <= 2 ^ 40 ->
  exists average, cogging_average py_sum reverse forward = Ok average /\ averages py_sum reverse forward average.
Proof.
  intros E L. enough (exists average, cogging_average py_sum reverse forward = Ok average) as [av A].
  { exists av. split; [exact A|]. now apply average_spec. }
  unfold cogging_average. rewrite E, Z.eqb_refl. cbn [negb].
  destruct (map_res_all (window_average py_sum forward reverse (Z.of_nat (length forward))) (fun _ _ => True) (py_range 0 COGGING_TABLE_SIZE))
    as (l & El & _); [|eauto].
  intros i I. apply in_range in I. unfold COGGING_TABLE_SIZE in I. unfold window_average, float_div. fold (edge (Z.of_nat (length forward)) i). fold (edge (Z.of_nat (length forward)) (i + 1)).
  pose proof (edge_step (Z.of_nat (length forward)) i ltac:(lia) ltac:(lia)) as S.
  pose proof (edge_top (Z.of_nat (length forward)) (i + 1) ltac:(lia) ltac:(lia)) as T.
  set (n := Z.of_nat (length forward)) in *. assert (0 < n / 1024) by (apply Z.div_str_pos; lia).
  change (i * n / COGGING_TABLE_SIZE) with (edge n i). change ((i + 1) * n / COGGING_TABLE_SIZE) with (edge n (i + 1)).
  rewrite !slice_length by (fold n; lia). rewrite nonzero_float by lia. eauto.
Qed.

(** Fewer, or not as many: there is none. *)
Theorem C71_short reverse forward : Z.of_nat (length reverse) < 1024 \/ length reverse <> length forward ->
  exists e, cogging_average py_sum reverse forward = Raise e.
Proof.
  intros H. unfold cogging_average. destruct (Z.of_nat (length forward) =? Z.of_nat (length reverse)) eqn:E; [|cbn; eauto].
  destruct H as [H|H]; [|lia]. cbn [negb]. exists ZeroDivisionError.
  assert (R : exists l, py_range 0 COGGING_TABLE_SIZE = 0 :: l) by (eexists; reflexivity). destruct R as [l ->]. cbn [map_res].
  unfold window_average at 1. set (n := Z.of_nat (length reverse)) in *.
  assert (E0 : slice (0 * n / COGGING_TABLE_SIZE) ((0 + 1) * n / COGGING_TABLE_SIZE) forward = [] /\
               slice (0 * n / COGGING_TABLE_SIZE) ((0 + 1) * n / COGGING_TABLE_SIZE) reverse = []).
  { unfold COGGING_TABLE_SIZE. rewrite Z.div_small by lia. rewrite (Z.div_small ((0 + 1) * n)) by lia. split; reflexivity. }
  destruct E0 as [E0 E0']. rewrite E0, E0'. reflexivity.
Qed.
End Cogging.

(** ** Examples

    A device with 4 poles; numbers are whole ones or "nan". *)
Definition toy_parse (s : list Z) : res float :=
  if bytes_eqb s (lit "nan") then Ok fnan else let* n := int10 s in Ok (float_of_Z n).
Definition toy_str (x : float) : list Z :=
  if isfinite x then int_str (ftrunc x) else lit "nan".
Definition toy_sum (l : list float) : float := fold_left fadd l (float_of_Z 0).

Definition toy_motor (hist : err + list Z) (refuse : list Z) (w : unit) (r : kreq) : unit * (err + krep r) :=
  (w, match r return err + krep r with
      | KCommand text _ =>
          if bytes_eqb text refuse then inl (Exn RuntimeError)
          else if bytes_eqb text (lit "d hend") then hist
          else if bytes_eqb text (lit "conf get motor.poles") then inr (lit "4")
          else if bytes_eqb text (lit "conf get servopos.position_min") then inr (lit "-2")
          else if startswith (lit "conf get motor_position.commutation_source") text then inr (lit "0")
          else if startswith (lit "conf get") text then inr (lit "1")
          else inr (lit "OK")
      | KSources => inr [(true, true)]
      | KStats => inr (10, 0)
      | KPosition _ _ => inr None
      | KNow => inr (float_of_Z 0)
      | KWrite _ | KFlush | KStop | KSleep _ | KSave _ _ | KNote _ => inr tt
      end).

Lemma toy_run {A W} n dev (w : W) (p : proc kreq krep A) check :
  match drive n dev w p with Some (t, o, _) => check t o | None => false end = true ->
  exists t o, traces p t (Some o) /\ check t o = true.
Proof.
  intros H. destruct (drive n dev w p) as [[[t o] u]|] eqn:E; [|discriminate].
  exists t, o. split; [exact (drive_traces _ _ _ _ _ _ _ _ _ E)|exact H].
Qed.

Definition toy_args (input : option (res (list float * list float))) (store : bool) : cogging_args :=
  {| cg_input := input; cg_average_count := 40; cg_speed := float_of_Z 8; cg_split_count := 1; cg_store := store |}.

(** 1024 lines each way; the run ends well after 1045 texts. *)
Definition toy_rows : list Z :=
  flat_map (fun i => lit "0 " ++ int_str (i mod 7 - 3) ++ [10]) (py_range 0 1024).
Example ex_cogging : exists t, traces (cogging_main toy_parse toy_str toy_sum (toy_args None true)) t (Some (inr (Some tt))) /\
  length (texts t) = 1046%nat.
Proof.
  destruct (toy_run 4000 (toy_motor (inr toy_rows) []) tt (cogging_main toy_parse toy_str toy_sum (toy_args None true))
              (fun t o => match o with inr (Some _) => (length (texts t) =? 1046)%nat | _ => false end)) as (t & o & T & C).
  { vm_compute. reflexivity. }
  exists t. destruct o as [|[[]|]]; try discriminate. split; [exact T|]. now apply Nat.eqb_eq.
Qed.
Example ex_usable : usable (map float_of_Z [-3; 0; 2]).
Proof.
  split.
  - apply Forall_forall. intros x I. apply in_map_iff in I as (z & <- & I). split; [apply float_of_Z_ok|].
    apply float_of_Z_correct. cbn in I. lia.
  - exists (float_of_Z (-3)). split; [cbn; auto|]. rewrite (proj2 (float_of_Z_correct (-3) ltac:(lia))).
    rewrite Rabs_left by lra. apply Rle_trans with 1%R; [|lra]. change 1%R with (bpow radix2 0). apply bpow_le. lia.
Qed.
Example ex_histogram : histogram toy_parse (lit "0 12" ++ [10] ++ lit "1 -3" ++ [10]) (map float_of_Z [12; -3]).
Proof.
  apply (histogram_line _ (lit "0") (lit "12") (float_of_Z 0) (float_of_Z 12)).
  1-2: split; [discriminate|vm_compute; repeat constructor; discriminate]. 1-2: reflexivity.
  apply (histogram_line _ (lit "1") (lit "-3") (float_of_Z 1) (float_of_Z (-3))).
  1-2: split; [discriminate|vm_compute; repeat constructor; discriminate]. 1-2: reflexivity.
  constructor.
Qed.
Example ex_unstored : exists t, traces (cogging_main toy_parse toy_str toy_sum (toy_args None false)) t (Some (inr (Some tt))) /\
  length (texts t) = 20%nat.
Proof.
  destruct (toy_run 4000 (toy_motor (inr toy_rows) []) tt (cogging_main toy_parse toy_str toy_sum (toy_args None false))
              (fun t o => match o with inr (Some _) => (length (texts t) =? 20)%nat | _ => false end)) as (t & o & T & C).
  { vm_compute. reflexivity. }
  exists t. destruct o as [|[[]|]]; try discriminate. split; [exact T|]. now apply Nat.eqb_eq.
Qed.

(** ** What a user might expect, and does not get *)

(** The program gives up on a value that is no number, and leaves the limits off: the position_min
    that was -2 stays "nan". *)
Theorem C71_limits_refuted : ~ forall parse_float float_str py_sum a t o,
  cg_input a = None -> traces (cogging_main parse_float float_str py_sum a) t (Some (inr o)) ->
  ~ holds (lit "servopos.position_min") (lit "nan") t.
Proof.
  intros H. destruct (drive 100 (toy_motor (inr (lit "0 nan" ++ [10])) []) tt (cogging_main toy_parse toy_str toy_sum (toy_args None true)))
    as [[[t o] u]|] eqn:E; [|vm_compute in E; discriminate].
  pose proof (drive_traces _ _ _ _ _ _ _ _ _ E) as T. vm_compute in E. injection E as <- <- <-.
  apply (H _ _ _ (toy_args None true) _ _ eq_refl T). clear.
  match goal with |- holds _ _ ?l => exists (firstn 11 l), (nth 11 l (existT _ KFlush None)), (skipn 12 l) end.
  split; [reflexivity|]. split; [do 2 eexists; reflexivity|].
  repeat constructor; intros text E [v B]; vm_compute in E; try discriminate; injection E as <-; discriminate.
Qed.

(** When the device refuses an answer, the program ends with the motor turning. *)
Theorem C71_moving_refuted : ~ forall parse_float float_str py_sum a t o,
  traces (cogging_main parse_float float_str py_sum a) t (Some o) -> stopped t.
Proof.
  intros H. destruct (drive 100 (toy_motor (inr []) (lit "d hend")) tt (cogging_main toy_parse toy_str toy_sum (toy_args None true)))
    as [[[t o] u]|] eqn:E; [|vm_compute in E; discriminate].
  pose proof (drive_traces _ _ _ _ _ _ _ _ _ E) as T. vm_compute in E. injection E as <- <- <-.
  specialize (H _ _ _ _ _ _ T). clear T.
  match type of H with stopped ?l => specialize (H (firstn 13 l) (nth 13 l (existT _ KFlush None)) (skipn 14 l) eq_refl) end.
  match type of H with ?P -> ?Q => assert (X : Q) by (apply H; left; eexists; reflexivity) end. clear H. vm_compute in X.
  repeat (apply Exists_cons in X as [[(any & r & X)|X]|X]; [discriminate|discriminate|]). now apply Exists_nil in X.
Qed.

(** A motor without any cogging cannot be stored. *)
Theorem C71_flat_refuted : ~ forall parse_float float_str py_sum reverse forward t o,
  Forall (fun x => isfinite x = true) (reverse ++ forward) -> length reverse = 1024%nat -> length forward = 1024%nat ->
  traces (cogging_main parse_float float_str py_sum (toy_args (Some (Ok (reverse, forward))) true)) t (Some o) ->
  In (lit "conf get motor_position.sources.0.type") (texts t) -> o = inr (Some tt).
Proof.
  intros H. pose (l := repeat (float_of_Z 0) 1024).
  destruct (toy_run 4000 (toy_motor (inr []) []) tt (cogging_main toy_parse toy_str toy_sum (toy_args (Some (Ok (l, l))) true))
              (fun t o => match o with inl (Exn ZeroDivisionError) => existsb (bytes_eqb (lit "conf get motor_position.sources.0.type")) (texts t) | _ => false end)) as (t & o & T & C).
  { vm_compute. reflexivity. }
  destruct o as [[[]|]|]; try discriminate. apply existsb_exists in C as (x & I & E). apply bytes_eqb_eq in E. subst x.
  apply H in T; [discriminate| |reflexivity|reflexivity|exact I].
  apply Forall_forall. intros x J. apply in_app_iff in J as [J|J]; apply repeat_spec in J; now subst.
Qed.

(** Where the greatest is tiny, an entry may not fit 8 bits. *)
Theorem C71_tiny_refuted : ~ forall average scale ds, Forall (fun x => float_ok x /\ isfinite x = true) average ->
  cogging_scaled average = Ok (scale, ds) -> Forall (fun d => -127 <= d <= 127) ds.
Proof.
  intros H. specialize (H [S754_finite false 190 (-1074)]).
  destruct (cogging_scaled [S754_finite false 190 (-1074)]) as [[scale ds]|] eqn:E; [|vm_compute in E; discriminate].
  specialize (H scale ds). vm_compute in E. injection E as <- <-.
  assert (X : Forall (fun d => -127 <= d <= 127) [190]) by (apply H; repeat constructor). inversion X; lia.
Qed.

Print Assumptions C71_sent.
Print Assumptions C71_recorded.
Print Assumptions C71_limits.
Print Assumptions C71_unstored.
Print Assumptions C71_steps.
Print Assumptions C71_rows.
Print Assumptions C71_bins.
Print Assumptions C71_short.
Print Assumptions C71_limits_refuted.
Print Assumptions C71_moving_refuted.
Print Assumptions C71_flat_refuted.
Print Assumptions C71_tiny_refuted.

