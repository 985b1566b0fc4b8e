(** Proofs about the bootloader's flash writer. *)
From Coq Require Import Ascii String ZArith List Bool Lia ZifyBool ZifyNat.
From Verif Require Import PyBase PyBytes Async Async_Proofs Fdcanusb_Model Props_Fdcanusb
  Zbits Flash_Model Flash_Proofs.
Import ListNotations.
Open Scope Z_scope.
Ltac Zify.zify_post_hook ::= Z.div_mod_to_equations.

(** ** Text *)
Lemma hex_number_pos w v : hex_number w v -> 0 <= v.
Proof. induction 1 as [c v H|w v c d H IH Hd]; [|]; apply hex_digit_range in H || apply hex_digit_range in Hd; lia. Qed.

Lemma hex_to_i_number w v : hex_number w v -> v < 2 ^ 32 -> hex_to_i w = v.
Proof.
  induction 1 as [c v H|w v c d H IH Hd]; intros L.
  - pose proof (hex_digit_range _ _ H). apply hex_digit_value in H. unfold hex_to_i. cbn [fold_left].
    rewrite H. cbn. reflexivity.
  - pose proof (hex_digit_range _ _ Hd). pose proof (hex_number_pos _ _ H).
    apply hex_digit_value in Hd. unfold hex_to_i in *. rewrite fold_left_app. cbn [fold_left].
    rewrite IH by lia. rewrite Hd. rewrite Z.shiftl_mul_pow2 by lia.
    rewrite Z.mod_small by lia. rewrite <- Z.shiftl_mul_pow2 by lia.
    rewrite Z.lor_comm, lor_shiftl_add by lia. lia.
Qed.

Lemma hex_pairs_bytes w d : hex_bytes w d -> hex_pairs w = d.
Proof.
  induction 1 as [|a b x y w d Ha Hb H IH]; [reflexivity|]. cbn [hex_pairs]. rewrite IH. f_equal.
  pose proof (hex_digit_range _ _ Ha). pose proof (hex_digit_range _ _ Hb).
  rewrite (hex_to_i_number [a; b] (16 * x + y)); [|now apply hex_pair|lia].
  apply Z.mod_small. lia.
Qed.

Lemma next_token_word w c l : Forall (fun x => delimiter x = false) w -> delimiter c = true ->
  next_token (w ++ c :: l) = (w, l).
Proof. intros F C. induction F as [|x w H F IH]; cbn; [now rewrite C|]. now rewrite H, IH. Qed.

Lemma digit_not_delimiter c v : hex_digit_of c v -> delimiter c = false.
Proof. unfold hex_digit_of, delimiter. lia. Qed.

Lemma number_token w v : hex_number w v -> Forall (fun x => delimiter x = false) w.
Proof.
  induction 1 as [c v H|w v c d H IH Hd].
  - constructor; auto. eapply digit_not_delimiter, H.
  - apply Forall_app. split; auto. constructor; auto. eapply digit_not_delimiter, Hd.
Qed.

Lemma bytes_token w d : hex_bytes w d -> Forall (fun x => delimiter x = false) w.
Proof. induction 1; constructor; eauto using digit_not_delimiter. Qed.

Lemma hex_bytes_length w d : hex_bytes w d -> List.length w = (2 * List.length d)%nat.
Proof. induction 1; cbn; lia. Qed.

Lemma u8_digits v : 0 <= v < 256 -> hex_bytes (u8_hex v) [v].
Proof.
  intros H. unfold u8_hex. replace v with (16 * ((v / 16) mod 16) + v mod 16) at 3 by lia.
  constructor; [apply hex_char_digit; lia|apply hex_char_digit; lia|constructor].
Qed.

Lemma u8_all d : bytes_ok d -> hex_bytes (List.concat (map u8_hex d)) d.
Proof.
  induction 1 as [|v d H F IH]; [constructor|]. cbn [map concat].
  change (v :: d) with ([v] ++ d). apply hex_bytes_app; auto. now apply u8_digits.
Qed.

Lemma u32_digits v : 0 <= v < 2 ^ 32 -> u32_hex v = hex_digits true 8 v.
Proof.
  intros H. unfold u32_hex, u8_hex. cbn [hex_digits app].
  change (2 ^ 24) with 16777216. change (2 ^ 16) with 65536. change (2 ^ 8) with 256.
  change (2 ^ 32) with 4294967296 in H.
  rewrite !Z.div_div by lia. cbn [Z.mul Pos.mul].
  repeat (apply (f_equal2 cons); [apply (f_equal (hex_char true)); lia|]). reflexivity.
Qed.

Lemma u32_number v : 0 <= v < 2 ^ 32 -> hex_number (u32_hex v) v.
Proof.
  intros H. rewrite u32_digits by exact H. apply (hex_digits_number true 7); [lia|].
  change (16 ^ Z.of_nat 8) with (2 ^ 32). lia.
Qed.

Lemma rstrip_id l c : is_space c = false -> rstrip (l ++ [c]) = l ++ [c].
Proof.
  intros H. unfold rstrip. rewrite rev_app_distr. cbn [rev app drop_space]. rewrite H.
  cbn [rev]. now rewrite rev_involutive.
Qed.

Lemma hex_not_space c v : hex_digit_of c v -> str_space c = false.
Proof. unfold hex_digit_of, str_space, is_space. lia. Qed.

Lemma bytes_not_space w d : hex_bytes w d -> Forall (fun c => str_space c = false) w.
Proof. induction 1; constructor; eauto using hex_not_space. Qed.

Lemma str_drop_id w : Forall (fun c => str_space c = false) w -> str_drop w = w.
Proof. destruct 1; cbn; [reflexivity|]. now rewrite H. Qed.

Lemma strip_id w : Forall (fun c => str_space c = false) w -> str_strip w = w.
Proof.
  intros F. unfold str_strip. rewrite (str_drop_id w F), str_drop_id.
  - apply rev_involutive.
  - now apply Forall_rev.
Qed.

Lemma low_u8 v : str_lower (u8_hex v) = hex_digits false 2 v.
Proof.
  unfold u8_hex. cbn [str_lower map hex_digits app].
  assert (A : forall d, 0 <= d < 16 ->
    (if ((65 <=? hex_char true d) && (hex_char true d <=? 90)) ||
        ((0xc0 <=? hex_char true d) && (hex_char true d <=? 0xde) && negb (hex_char true d =? 0xd7))
     then hex_char true d + 32 else hex_char true d) = hex_char false d).
  { intros d H. unfold hex_char. destruct (d <? 10) eqn:E; destruct (_ || _) eqn:E2; lia. }
  rewrite !A by lia. reflexivity.
Qed.

Lemma low_all d : str_lower (List.concat (map u8_hex d)) = bytes_hex d.
Proof.
  unfold bytes_hex. induction d as [|v d IH]; [reflexivity|]. cbn [map concat].
  unfold str_lower in *. rewrite map_app, IH. f_equal. apply low_u8.
Qed.

Lemma split_on_last sep w : ~ In sep w -> split_on sep w = [w].
Proof.
  induction w as [|c w IH]; intros H; [reflexivity|]. cbn in *.
  replace (c =? sep) with false by lia. rewrite IH by tauto. reflexivity.
Qed.

Lemma map_blank_id w v : hex_number w v ->
  map (fun c => if (c =? 0x85) || (c =? 0xa0) then 32 else c) w = w.
Proof.
  induction 1 as [c v H|w v c d H IH Hd].
  - cbn. unfold hex_digit_of in H. now replace (_ || _) with false by lia.
  - rewrite map_app, IH. cbn. unfold hex_digit_of in Hd. now replace (_ || _) with false by lia.
Qed.

Lemma verify_line a d : 0 <= a < 2 ^ 32 -> bytes_ok d -> d <> [] ->
  verify_blocks (a, d) (rstrip (u32_hex a ++ [32] ++ List.concat (map u8_hex d))) = Ok tt.
Proof.
  intros Ha By N. pose proof (u8_all d By) as Hb. pose proof (u32_number a Ha) as Hn.
  rewrite app_assoc. destruct (exists_last N) as (d0 & v & E).
  assert (Hr : rstrip ((u32_hex a ++ [32]) ++ List.concat (map u8_hex d)) =
               (u32_hex a ++ [32]) ++ List.concat (map u8_hex d)).
  { rewrite E, map_app, concat_app. cbn [map concat]. rewrite app_nil_r. unfold u8_hex at 2 4.
    rewrite !(app_assoc _ (concat _)). change [?x; ?y] with ([x] ++ [y]). rewrite !app_assoc.
    apply rstrip_id.
    assert (hex_digit_of (hex_char true (v mod 16)) (v mod 16)) by (apply hex_char_digit; lia).
    eapply digit_not_space. apply hex_digit_value. eassumption. }
  rewrite Hr, <- app_assoc. cbn [app]. unfold verify_blocks.
  rewrite split_on_word by (eapply hex_number_no_space, Hn).
  rewrite split_on_last by (eapply hex_bytes_no_space, Hb).
  unfold str_int16. rewrite (map_blank_id _ _ Hn), (int16_number _ _ Hn). cbn [bind fst snd].
  rewrite Z.eqb_refl. cbn [negb].
  rewrite (strip_id _ (bytes_not_space _ _ Hb)), low_all.
  now rewrite (proj2 (bytes_eqb_eq _ _) eq_refl).
Qed.

(** ** Lists *)
Lemma set_nth_length {A} (l : list A) i x : (i < List.length l)%nat ->
  List.length (set_nth l i x) = List.length l.
Proof. intros H. unfold set_nth. rewrite app_length, firstn_length. cbn [List.length]. rewrite skipn_length. lia. Qed.

Lemma nth_skip {A} (l : list A) : forall i j d, nth j (skipn i l) d = nth (i + j) l d.
Proof.
  induction l as [|x l IH]; intros [|i] j d; cbn; auto. now destruct j.
Qed.

Lemma nth_set_same {A} (l : list A) i x d : (i < List.length l)%nat -> nth i (set_nth l i x) d = x.
Proof.
  intros H. unfold set_nth. rewrite app_nth2; rewrite firstn_length_le by lia; [|lia].
  now rewrite Nat.sub_diag.
Qed.

Lemma nth_set_other {A} (l : list A) i j x d : (i < List.length l)%nat -> i <> j ->
  nth j (set_nth l i x) d = nth j l d.
Proof.
  intros H N. rewrite <- (firstn_skipn i l) at 2. unfold set_nth.
  destruct (Nat.lt_ge_cases j i).
  - rewrite !app_nth1 by (rewrite firstn_length; lia). reflexivity.
  - rewrite !app_nth2 by (rewrite firstn_length; lia). rewrite firstn_length_le by lia.
    destruct (j - i)%nat as [|k] eqn:E; [lia|]. cbn [nth].
    rewrite !nth_skip. f_equal. lia.
Qed.

Lemma forallb_nth (l : list bool) i : forallb (fun x => x) l = true -> (i < List.length l)%nat ->
  nth i l false = true.
Proof.
  intros H L. rewrite forallb_forall in H. apply H. now apply nth_In.
Qed.

Lemma nth_forallb (l : list bool) : (forall i, (i < List.length l)%nat -> nth i l false = true) ->
  forallb (fun x => x) l = true.
Proof.
  intros H. apply forallb_forall. intros x Hx. apply (In_nth _ _ false) in Hx as (i & L & <-). auto.
Qed.

(** ** The flash writer *)
Lemma sector_word s x : s mod 8 = 0 -> s <= x < s + 8 -> sector x = sector s.
Proof.
  unfold sector. intros M H. destruct (x <? 0x08040000) eqn:E1, (s <? 0x08040000) eqn:E2; lia.
Qed.

Definition pending (b : boot) (x : Z) : Prop :=
  bt_start b <> 0 /\ bt_start b <= x < bt_start b + 8.

(** [W] has been written, all of it below [p]; [m0] is the memory at first. *)
Record inv (m0 : Z -> Z) (b : boot) (p : Z) (W : list (Z * Z)) : Prop := {
  i_unlocked : bt_locked b = false;
  i_shadow : List.length (bt_shadow b) = 8%nat;
  i_nbits : List.length (bt_bits b) = 8%nat;
  i_zero : bt_start b = 0 -> p mod 8 = 0 /\ bt_bits b = repeat false 8;
  i_start : bt_start b <> 0 -> bt_start b mod 8 = 0 /\ bt_start b < p <= bt_start b + 8;
  i_bits : bt_start b <> 0 -> forall i, (i < 8)%nat -> nth i (bt_bits b) false = true ->
    bt_start b + Z.of_nat i < p;
  i_bits_set : forall a v, In (a, v) W -> pending b a ->
    nth (Z.to_nat (a - bt_start b)) (bt_bits b) false = true;
  i_pos : forall a v, In (a, v) W -> a < p;
  i_pending : forall a v, In (a, v) W -> pending b a ->
    nth (Z.to_nat (a - bt_start b)) (bt_shadow b) 0 = v;
  i_done : forall a v, In (a, v) W -> ~ pending b a ->
    bt_mem b a = v /\ bt_erased b (sector a) = true;
  i_clean : forall x, (if bt_start b =? 0 then p else bt_start b) <= x ->
    bt_erased b (sector x) = true -> bt_mem b x = 0xff;
  i_other : forall x, bt_erased b (sector x) = false -> bt_mem b x = m0 x;
  i_touched : forall s, bt_erased b s = true -> exists a v, In (a, v) W /\ sector a = s;
  i_nonempty : bt_start b <> 0 -> exists a v, In (a, v) W /\ pending b a
}.

Lemma inv_flush m0 b p W : inv m0 b p W -> bt_start b <> 0 ->
  exists b', flush_word b = (b', true) /\ bt_start b' = 0 /\ inv m0 b' (bt_start b + 8) W.
Proof.
  intros I N. destruct (i_start _ _ _ _ I N) as [M P].
  set (s := bt_start b) in *.
  set (m := if bt_erased b (sector s) then bt_mem b else hw_erase (sector s) (bt_mem b)).
  assert (FF : forall x, s <= x < s + 8 -> m x = 0xff).
  { intros x Hx. pose proof (sector_word s x M Hx) as Hs. unfold m.
    destruct (bt_erased b (sector s)) eqn:E.
    - apply (i_clean _ _ _ _ I). fold s. now replace (s =? 0) with false by lia.
      now rewrite Hs.
    - unfold hw_erase. now rewrite Hs, Z.eqb_refl. }
  assert (Mo : forall x, sector x <> sector s \/ bt_erased b (sector s) = true -> m x = bt_mem b x).
  { intros x Hx. unfold m. destruct (bt_erased b (sector s)) eqn:E; auto.
    destruct Hx as [Hx|Hx]; [|discriminate]. unfold hw_erase.
    now replace (sector x =? sector s) with false by lia. }
  assert (Me : forall x, bt_erased b (sector s) = false -> sector x = sector s -> m x = 0xff).
  { intros x E Es. unfold m. rewrite E. unfold hw_erase. now rewrite Es, Z.eqb_refl. }
  assert (WF : word_at m s = repeat 0xff 8).
  { unfold word_at. cbn [seq map repeat]. rewrite !FF by lia. reflexivity. }
  set (m' := fun x => if (s <=? x) && (x <? s + 8) then nth (Z.to_nat (x - s)) (bt_shadow b) 0 else m x).
  assert (exists mm, flush_word b =
    ({| bt_locked := bt_locked b; bt_start := 0; bt_shadow := repeat 0xff 8;
        bt_bits := repeat false 8; bt_erased := fun i => (i =? sector s) || bt_erased b i;
        bt_mem := mm |}, true) /\ forall x, mm x = m' x) as (mm & Hf & Hm).
  { unfold flush_word. fold s. fold m. cbv zeta.
    destruct (bytes_eqb (word_at m s) (bt_shadow b)) eqn:E.
    - exists m. split; auto. intros x. unfold m'. destruct (_ && _) eqn:C; auto.
      apply bytes_eqb_eq in E. rewrite <- E, WF, FF by lia.
      symmetry. rewrite (nth_indep _ 0 0xff) by (rewrite repeat_length; lia). apply nth_repeat.
    - exists m'. unfold hw_program. rewrite WF. rewrite (proj2 (bytes_eqb_eq _ _) eq_refl). auto. }
  eexists. split; [exact Hf|]. split; [reflexivity|].
  assert (NP : forall L S B E' M' x, ~ pending {| bt_locked := L; bt_start := 0; bt_shadow := S;
     bt_bits := B; bt_erased := E'; bt_mem := M' |} x) by (intros; unfold pending; cbn; tauto).
  constructor; cbn [bt_locked bt_start bt_shadow bt_bits bt_erased bt_mem].
  - apply (i_unlocked _ _ _ _ I).
  - reflexivity.
  - reflexivity.
  - intros _. split; [lia|reflexivity].
  - congruence.
  - congruence.
  - intros a v Hi Hp. now apply NP in Hp.
  - intros a v Hi. pose proof (i_pos _ _ _ _ I a v Hi). lia.
  - intros a v Hi Hp. now apply NP in Hp.
  - intros a v Hi _. rewrite Hm. unfold m'. destruct (_ && _) eqn:C.
    + assert (Hx : s <= a < s + 8) by lia. split.
      * apply (i_pending _ _ _ _ I a v Hi). now split.
      * rewrite (sector_word s a M Hx), Z.eqb_refl. reflexivity.
    + destruct (i_done _ _ _ _ I a v Hi) as [D1 D2].
      { unfold pending. fold s. lia. }
      rewrite D2, orb_true_r. split; auto. rewrite Mo; auto.
      destruct (Z.eq_dec (sector a) (sector s)) as [Es|]; auto. right. now rewrite <- Es.
  - intros x Hx He. rewrite Hm. unfold m'. cbn [Z.eqb] in Hx.
    replace (_ && _) with false by lia.
    destruct (bt_erased b (sector s)) eqn:E.
    + rewrite Mo by auto. apply (i_clean _ _ _ _ I).
      * fold s. replace (s =? 0) with false by lia. lia.
      * destruct (sector x =? sector s) eqn:Es; [|exact He].
        apply Z.eqb_eq in Es. now rewrite Es.
    + destruct (sector x =? sector s) eqn:Es.
      * apply Me; [auto|lia].
      * rewrite Mo by (left; lia). apply (i_clean _ _ _ _ I); [|exact He].
        fold s. replace (s =? 0) with false by lia. lia.
  - intros x He. apply orb_false_iff in He as [He1 He2]. rewrite Hm. unfold m'.
    destruct (_ && _) eqn:C.
    + pose proof (sector_word s x M). lia.
    + rewrite Mo by (left; lia). now apply (i_other _ _ _ _ I).
  - intros t Ht. apply orb_true_iff in Ht as [Ht|Ht].
    + apply Z.eqb_eq in Ht. subst t. destruct (i_nonempty _ _ _ _ I N) as (a & v & Hi & _ & Hp).
      exists a, v. split; auto. now apply sector_word.
    + now apply (i_touched _ _ _ _ I).
  - congruence.
Qed.

Lemma inv_stage m0 b p W a v : inv m0 b p W -> p <= a -> 8 <= a ->
  (bt_start b = 0 \/ bt_start b = a - a mod 8) ->
  inv m0 {| bt_locked := bt_locked b; bt_start := a - a mod 8;
            bt_shadow := set_nth (bt_shadow b) (Z.to_nat (a mod 8)) v;
            bt_bits := set_nth (bt_bits b) (Z.to_nat (a mod 8)) true;
            bt_erased := bt_erased b; bt_mem := bt_mem b |} (a + 1) (W ++ [(a, v)]).
Proof.
  intros I L A H. pose proof (i_shadow _ _ _ _ I) as Ls. pose proof (i_nbits _ _ _ _ I) as Lb.
  assert (O : (Z.to_nat (a mod 8) < 8)%nat) by lia.
  assert (NZ : a - a mod 8 <> 0) by lia.
  (* written before and in this word: then it was pending *)
  assert (Pd : forall a' v', In (a', v') W -> a - a mod 8 <= a' < a - a mod 8 + 8 ->
    pending b a' /\ bt_start b = a - a mod 8).
  { intros a' v' Hi Ha'. pose proof (i_pos _ _ _ _ I a' v' Hi).
    destruct H as [H|H].
    - destruct (i_zero _ _ _ _ I H) as [M _]. lia.
    - split; auto. unfold pending. rewrite H. split; auto. }
  constructor; unfold pending; cbn [bt_locked bt_start bt_shadow bt_bits bt_erased bt_mem].
  - apply (i_unlocked _ _ _ _ I).
  - rewrite set_nth_length; lia.
  - rewrite set_nth_length; lia.
  - lia.
  - lia.
  - intros _ i Hi Hn. destruct (Nat.eq_dec i (Z.to_nat (a mod 8))) as [->|Ne]; [lia|].
    rewrite nth_set_other in Hn by lia. destruct H as [H|H].
    + destruct (i_zero _ _ _ _ I H) as [_ Hz]. rewrite Hz in Hn.
      rewrite nth_repeat in Hn. discriminate.
    + pose proof (i_bits _ _ _ _ I ltac:(lia) i Hi Hn). lia.
  - intros a' v' Hi [_ Hp]. apply in_app_or in Hi as [Hi|[Hi|[]]].
    + destruct (Pd a' v' Hi Hp) as [Hpd Es]. pose proof (i_pos _ _ _ _ I a' v' Hi).
      rewrite nth_set_other by lia. rewrite <- Es. now apply (i_bits_set _ _ _ _ I a' v').
    + injection Hi as <- <-. replace (Z.to_nat (a - _)) with (Z.to_nat (a mod 8)) by lia.
      apply nth_set_same. lia.
  - intros a' v' Hi. apply in_app_or in Hi as [Hi|[Hi|[]]].
    + pose proof (i_pos _ _ _ _ I a' v' Hi). lia.
    + injection Hi as <- <-. lia.
  - intros a' v' Hi [_ Hp]. apply in_app_or in Hi as [Hi|[Hi|[]]].
    + destruct (Pd a' v' Hi Hp) as [Hpd Es]. pose proof (i_pos _ _ _ _ I a' v' Hi).
      rewrite nth_set_other by lia. rewrite <- Es. now apply (i_pending _ _ _ _ I a' v').
    + injection Hi as <- <-. replace (Z.to_nat (a - _)) with (Z.to_nat (a mod 8)) by lia.
      apply nth_set_same. lia.
  - intros a' v' Hi Hp. apply in_app_or in Hi as [Hi|[Hi|[]]].
    + apply (i_done _ _ _ _ I a' v' Hi). unfold pending. intros [Hq Hq'].
      destruct H as [H|H]; [congruence|]. apply Hp. rewrite <- H. auto.
    + injection Hi as <- <-. lia.
  - intros x Hx He. replace (a - a mod 8 =? 0) with false in Hx by lia.
    apply (i_clean _ _ _ _ I); auto. destruct H as [H|H].
    + rewrite H. cbn [Z.eqb]. destruct (i_zero _ _ _ _ I H). lia.
    + rewrite H. replace (a - a mod 8 =? 0) with false by lia. exact Hx.
  - apply (i_other _ _ _ _ I).
  - intros s Hs. destruct (i_touched _ _ _ _ I s Hs) as (a' & v' & Hi & E).
    exists a', v'. split; auto. apply in_or_app. now left.
  - intros _. exists a, v. split; [apply in_or_app; right; now left|]. lia.
Qed.

(** Between two bytes the word is not full. *)
Definition not_full (b : boot) : Prop := bt_start b <> 0 -> forallb (fun x => x) (bt_bits b) = false.

Lemma inv_byte m0 b p W a v : inv m0 b p W -> p <= a -> 8 <= a ->
  exists b', program_byte a v b = (b', true) /\ inv m0 b' (a + 1) (W ++ [(a, v)]) /\ not_full b'.
Proof.
  intros I L A. unfold program_byte. cbv zeta.
  assert (exists b1 p1,
    (if negb (a - a mod 8 =? bt_start b) && negb (bt_start b =? 0) then flush_word b else (b, true))
      = (b1, true) /\ inv m0 b1 p1 W /\ p1 <= a /\
    (bt_start b1 = 0 \/ bt_start b1 = a - a mod 8)) as (b1 & p1 & -> & I1 & L1 & S1).
  { destruct (_ && _) eqn:C.
    - assert (N : bt_start b <> 0) by lia.
      destruct (inv_flush _ _ _ _ I N) as (b' & E & Z0 & I'). exists b', (bt_start b + 8).
      destruct (i_start _ _ _ _ I N). split; auto. split; auto. split; [lia|auto].
    - exists b, p. split; auto. split; auto. split; auto. lia. }
  pose proof (inv_stage _ _ _ _ a v I1 L1 A S1) as I2.
  set (b2 := {| bt_locked := _ |}) in *. cbn [bt_bits] in *.
  change (set_nth (bt_bits b1) (Z.to_nat (a mod 8)) true) with (bt_bits b2).
  destruct (forallb (fun x => x) (bt_bits b2)) eqn:F.
  - assert (N2 : bt_start b2 <> 0) by (cbn; lia).
    destruct (inv_flush _ _ _ _ I2 N2) as (b' & E & Z0 & I'). exists b'. split; auto.
    pose proof (i_bits _ _ _ _ I2 N2 7%nat ltac:(lia)
      (forallb_nth _ 7 F ltac:(rewrite (i_nbits _ _ _ _ I2); lia))).
    assert (bt_start b2 + 8 = a + 1) as <- by (cbn in *; lia).
    split; auto. intros Hn. congruence.
  - exists b2. split; auto. split; auto. now intros _.
Qed.

(** Where the bootloader writes. *)
Definition writable (x : Z) : Prop :=
  0x08000000 <= x < 0x08080000 /\ ~ (0x0800c000 <= x < 0x08010000).

Lemma write_bytes_inv m0 d : forall a b p W, inv m0 b p W -> not_full b -> p <= a ->
  (forall x, a <= x < a + len d -> writable x) ->
  exists b' p', write_bytes a d b = (b', true) /\ inv m0 b' p' (W ++ placed a d) /\
    not_full b' /\ p' <= a + len d /\ (d <> [] -> p' = a + len d).
Proof.
  induction d as [|v d IH]; intros a b p W I NF L Wr.
  - exists b, p. cbn. rewrite app_nil_r. unfold len. cbn.
    split; auto. split; auto. split; auto. split; [lia|congruence].
  - cbn [write_bytes placed]. unfold write_byte. rewrite (i_unlocked _ _ _ _ I).
    assert (Ha : writable a) by (apply Wr; unfold len; cbn; lia). unfold writable in Ha.
    replace ((a <? 0x08000000) || (a >=? 0x08080000)) with false by lia.
    replace ((a >=? 0x0800c000) && (a <? 0x08010000)) with false by lia.
    destruct (inv_byte _ _ _ _ a v I L ltac:(lia)) as (b1 & -> & I1 & NF1).
    destruct (IH (a + 1) b1 (a + 1) _ I1 NF1 ltac:(lia)) as (b' & p' & E & I' & NF' & L' & Q).
    { intros x Hx. apply Wr. unfold len in *. cbn [List.length]. lia. }
    exists b', p'. split; auto. rewrite <- app_assoc in I'. split; auto. split; auto.
    assert (p' = a + len (v :: d)).
    { destruct d as [|w d]; [|rewrite Q by congruence; unfold len; cbn [List.length]; lia].
      cbn in E. injection E as <-. cbn in I'. rewrite app_nil_r in I' || idtac.
      (* the word and its end are determined *)
      unfold len in *. cbn in *.
      destruct (Z.eq_dec p' (a + 1)); [lia|]. exfalso.
      assert (In (a, v) (W ++ [(a, v)])) by (apply in_or_app; right; now left).
      pose proof (i_pos _ _ _ _ I' a v H). lia. }
    split; [lia|auto].
Qed.

(** Bytes in order of their addresses. *)
Fixpoint sorted_from (p : Z) (l : list (Z * Z)) : Prop :=
  match l with [] => True | (a, _) :: l => p <= a /\ sorted_from (a + 1) l end.

Lemma sorted_weaken p q l : q <= p -> sorted_from p l -> sorted_from q l.
Proof. destruct l as [|[a v] l]; cbn; auto. intros. intuition lia. Qed.

Lemma sorted_placed a d l : sorted_from (a + len d) l -> sorted_from a (placed a d ++ l).
Proof.
  revert a. induction d as [|v d IH]; intros a H; unfold len in *; cbn in *.
  - now rewrite Z.add_0_r in H.
  - split; [lia|]. apply IH. unfold len. now replace (a + 1 + _) with (a + Z.of_nat (S (List.length d))) by lia.
Qed.

Lemma sorted_placed_inv p a d l : d <> [] -> sorted_from p (placed a d ++ l) ->
  p <= a /\ sorted_from (a + len d) l.
Proof.
  revert p a. induction d as [|v d IH]; intros p a N H; [congruence|]. cbn in H.
  destruct H as [H1 H2]. split; auto. destruct d as [|w d].
  - unfold len. cbn in *. exact H2.
  - apply IH in H2 as [_ H2]; [|congruence]. unfold len in *. cbn [List.length] in *.
    now replace (a + Z.of_nat (S (S (List.length d)))) with (a + 1 + Z.of_nat (S (List.length d))) by lia.
Qed.

Lemma image_sorted lo elf : image_ok lo elf -> sorted_from lo (image_bytes elf).
Proof.
  revert lo. induction elf as [|[a d] elf IH]; intros lo H; cbn in *; auto.
  destruct H as (H1 & H2 & H3 & H4). unfold image_bytes. cbn [map concat fst snd].
  apply sorted_weaken with (p := a); [exact H1|]. apply sorted_placed. now apply IH.
Qed.

Section Run.
Variable elapsed : boot -> Z.

Lemma run_write b blk : 0 <= fst blk < 2 ^ 32 -> bytes_ok (snd blk) -> snd blk <> [] ->
  run_command elapsed (w_cmd blk ++ [LF]) b =
    let '(b', ok) := write_bytes (fst blk) (snd blk) b in
    (b', if ok then lit "OK " ++ u32_hex (elapsed b) else lit "ERR").
Proof.
  intros Ha By N. destruct blk as [a d]. cbn [fst snd] in *. unfold w_cmd, run_command. cbn [fst snd].
  change (lit "w ") with ([119] ++ [32]). rewrite <- !app_assoc. cbn [app].
  pose proof (format_hex_number false 0 a ltac:(lia)) as Hn. fold (hexa a) in Hn.
  pose proof (bytes_hex_bytes d By) as Hb.
  change (119 :: 32 :: ?l) with ([119] ++ 32 :: l).
  rewrite (next_token_word [119]) by (auto; now repeat constructor).
  cbn [bytes_eqb lit]. change (bytes_eqb [119] (lit "unlock")) with false.
  change (bytes_eqb [119] (lit "lock")) with false. change (bytes_eqb [119] (lit "w")) with true.
  cbv iota.
  rewrite (next_token_word (hexa a)) by (eauto using number_token).
  rewrite (next_token_word (bytes_hex d)) by (eauto using bytes_token).
  destruct (hexa a) as [|c w] eqn:Ew.
  { inversion Hn as [? ? ? Hx|? ? ? ? ? ? Hx]. destruct w; discriminate. }
  rewrite <- Ew in *. clear Ew.
  pose proof (hex_bytes_length _ _ Hb) as Hl.
  destruct (bytes_hex d) as [|c' w'] eqn:Ed.
  { destruct d; [congruence|cbn in Hl; lia]. }
  rewrite <- Ed in *. clear Ed.
  rewrite Hl. replace (Nat.modulo (2 * List.length d) 2) with 0%nat.
  2:{ symmetry. rewrite Nat.mul_comm. apply Nat.mod_mul. lia. }
  cbn [Nat.eqb negb].
  rewrite (hex_to_i_number _ _ Hn) by lia. now rewrite (hex_pairs_bytes _ _ Hb).
Qed.

Lemma run_read b blk : 0 <= fst blk < 2 ^ 32 -> good_block blk ->
  (forall a v, In (a, v) (placed (fst blk) (snd blk)) -> bt_mem b a = v) ->
  run_command elapsed (r_cmd blk ++ [LF]) b =
    (b, u32_hex (fst blk) ++ [32] ++ List.concat (map u8_hex (snd blk))).
Proof.
  intros Ha [Hl By] Hm. destruct blk as [a d]. cbn [fst snd] in *. unfold r_cmd, run_command. cbn [fst snd].
  change (lit "r ") with ([114] ++ [32]). rewrite <- !app_assoc. cbn [app].
  pose proof (format_hex_number false 0 a ltac:(lia)) as Hn. fold (hexa a) in Hn.
  pose proof (format_hex_number false 0 (Z.of_nat (List.length d)) ltac:(lia)) as Hb.
  fold (hexa (Z.of_nat (List.length d))) in Hb.
  change (114 :: 32 :: ?l) with ([114] ++ 32 :: l).
  rewrite (next_token_word [114]) by (auto; now repeat constructor).
  change (bytes_eqb [114] (lit "unlock")) with false.
  change (bytes_eqb [114] (lit "lock")) with false. change (bytes_eqb [114] (lit "w")) with false.
  change (bytes_eqb [114] (lit "r")) with true. cbv iota.
  rewrite (next_token_word (hexa a)) by (eauto using number_token).
  rewrite (next_token_word (hexa (Z.of_nat _))) by (eauto using number_token).
  destruct (hexa a) as [|c w] eqn:Ew.
  { inversion Hn as [? ? ? Hx|? ? ? ? ? ? Hx]. destruct w; discriminate. }
  rewrite <- Ew in *. clear Ew.
  destruct (hexa (Z.of_nat _)) as [|c' w'] eqn:Ed.
  { inversion Hb as [? ? ? Hx|? ? ? ? ? ? Hx]. destruct w0; discriminate. }
  rewrite <- Ed in *. clear Ed. unfold len in Hl.
  rewrite (hex_to_i_number _ _ Hn), (hex_to_i_number _ _ Hb) by lia.
  replace (_ >? 32) with false by lia. rewrite Nat2Z.id. f_equal. do 3 f_equal.
  clear - Hm. revert a Hm.
  induction d as [|v d IH]; intros a Hm; [reflexivity|].
  cbn [List.length seq map]. f_equal.
  - f_equal. rewrite Z.add_0_r. apply Hm. now left.
  - rewrite <- seq_shift, map_map. rewrite <- (IH (a + 1)) by (intros; apply Hm; now right).
    apply map_ext. intros i. do 2 f_equal. lia.
Qed.

Lemma boot_run_app qs qs' : forall b,
  boot_run elapsed b (qs ++ qs') =
    let '(b1, rs) := boot_run elapsed b qs in
    let '(b2, rs') := boot_run elapsed b1 qs' in (b2, rs ++ rs').
Proof.
  induction qs as [|[c any] qs IH]; intros b; cbn [app boot_run].
  - now destruct (boot_run elapsed b qs').
  - destruct (run_command elapsed (c ++ [LF]) b) as [b1 line]. rewrite IH.
    destruct (boot_run elapsed b1 qs) as [b2 rs]. now destruct (boot_run elapsed b2 qs').
Qed.

Lemma boot_writes m0 bs : forall b p W, inv m0 b p W -> not_full b ->
  Forall good_block bs -> sorted_from p (image_bytes bs) ->
  (forall a v, In (a, v) (image_bytes bs) -> writable a) ->
  exists b' p', boot_run elapsed b (map w_req bs) = (b', map Ok (repeat [] (List.length bs))) /\
    inv m0 b' p' (W ++ image_bytes bs) /\ not_full b' /\
    (bs <> [] -> p' = image_end bs) /\ (bs = [] -> p' = p).
Proof.
  induction bs as [|[a d] bs IH]; intros b p W I NF G So Wr.
  - exists b, p. unfold image_bytes. cbn. rewrite app_nil_r.
    split; auto. split; auto. split; auto. split; [congruence|auto].
  - inversion G as [|? ? Gb G']; subst. unfold image_bytes in So, Wr. cbn [map concat fst snd] in So, Wr.
    destruct Gb as [Gl By]. cbn [snd] in Gl, By.
    assert (N : d <> []) by (intros ->; unfold len in Gl; cbn in Gl; lia).
    apply sorted_placed_inv in So as [L So]; [|exact N].
    assert (In_placed : forall x, a <= x < a + len d -> exists v, In (x, v) (placed a d)).
    { clear. revert a. induction d as [|v d IH]; intros a x H; unfold len in H; cbn in *; [lia|].
      destruct (Z.eq_dec x a) as [->|]; [exists v; auto|].
      destruct (IH (a + 1) x) as (u & Hu); [unfold len; lia|]. eauto. }
    assert (Wd : forall x, a <= x < a + len d -> writable x).
    { intros x Hx. destruct (In_placed x Hx) as (v & Hv). apply (Wr x v). apply in_or_app. now left. }
    destruct (write_bytes_inv m0 d a b p W I NF L Wd) as (b1 & p1 & E & I1 & NF1 & _ & Q).
    rewrite (Q N) in I1.
    destruct (IH b1 (a + len d) _ I1 NF1 G') as (b' & p' & E' & I' & NF' & Q1 & Q2).
    { exact So. }
    { intros x v Hx. apply (Wr x v). apply in_or_app. now right. }
    exists b', p'. cbn [map boot_run]. unfold w_req at 1.
    assert (writable a) by (apply Wd; lia).
    rewrite run_write by (cbn [fst snd]; unfold writable in *; auto; lia).
    cbn [fst snd]. rewrite E. rewrite E'. cbn [List.length repeat map].
    split; [reflexivity|]. unfold image_bytes. cbn [map concat fst snd].
    rewrite app_assoc. split; auto. split; auto. split; [|congruence].
    intros _. destruct bs as [|b2 bs].
    + rewrite Q2 by reflexivity. reflexivity.
    + rewrite Q1 by congruence. reflexivity.
Qed.

Lemma boot_reads b bs : Forall good_block bs ->
  (forall blk, In blk bs -> 0 <= fst blk < 2 ^ 32) ->
  (forall a v, In (a, v) (image_bytes bs) -> bt_mem b a = v) ->
  exists rs, boot_run elapsed b (map r_req bs) = (b, map Ok rs) /\
    Forall2 (fun blk r => verify_blocks blk r = Ok tt) bs rs.
Proof.
  induction 1 as [|[a d] bs Gb G IH]; intros Ha Hm.
  - exists []. split; constructor.
  - destruct IH as (rs & E & F).
    { intros blk Hb. apply Ha. now right. }
    { intros x v Hx. apply Hm. unfold image_bytes. cbn [map concat]. apply in_or_app. now right. }
    pose proof (Ha (a, d) (or_introl eq_refl)) as Ha'. cbn in Ha'.
    eexists (rstrip (u32_hex a ++ [32] ++ List.concat (map u8_hex d)) :: rs).
    split.
    + cbn [map boot_run]. unfold r_req at 1. rewrite run_read; auto.
      2:{ intros x v Hx. apply Hm. unfold image_bytes. cbn [map concat]. apply in_or_app. now left. }
      rewrite E. reflexivity.
    + constructor; auto. destruct Gb as [Gl By]. cbn [snd] in *. apply verify_line; auto.
      intros ->. unfold len in Gl. cbn in Gl. lia.
Qed.
End Run.
