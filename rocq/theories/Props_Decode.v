(** C65: decode_can_frame.py explains a frame: every byte, and every register
    access as the controller sees it. *)
From Coq Require Import String ZArith List Bool Lia ZifyBool ZifyNat.
From Coq Require Import Floats.SpecFloat.
From Verif Require Import PyBase PyFloat Zbits Mux_Model Protocol_Spec Mux_Proofs Fw_Spec
  Decode_Model Decode_Spec.
Import ListNotations.
Open Scope Z_scope.
Open Scope py_scope.

(** ** Every byte is shown, once and in order *)

(** [shows pre d post]: the bytes taken but not shown before [d], then those
    [d] takes, are those it shows, then those it leaves to be shown. *)
Definition shows {A} (pre : list Z) (d : dec A) (post : A -> list Z) : Prop :=
  forall s o r, d s = (o, r) ->
  exists k, pre ++ s = List.concat (map fst o) ++ k /\
            forall a s', r = Ok (a, s') -> k = post a ++ s'.

Lemma shows_bind {A B} pre (d : dec A) mid (f : A -> dec B) post :
  shows pre d mid -> (forall a, shows (mid a) (f a) post) -> shows pre (dbind d f) post.
Proof.
  intros D F s o r H. unfold dbind in H. destruct (d s) as [o1 [[a s1]|e]] eqn:E.
  - destruct (D _ _ _ E) as (k & E1 & K). specialize (K a s1 eq_refl). subst k.
    destruct (f a s1) as [o2 r2] eqn:E2. injection H as <- <-.
    destruct (F a _ _ _ E2) as (k & E3 & K). exists k. split; [|exact K].
    rewrite E1, E3, map_app, concat_app, app_assoc. reflexivity.
  - injection H as <- <-. destruct (D _ _ _ E) as (k & E1 & _). exists k.
    split; [exact E1|]. discriminate.
Qed.

Lemma shows_ret {A} (a : A) post : shows (post a) (dret a) post.
Proof.
  intros s o r H. injection H as <- <-. exists (post a ++ s). split; [reflexivity|].
  intros a' s' E. injection E as <- <-. reflexivity.
Qed.

Lemma shows_raise {A} pre e post : shows pre (draise e : dec A) post.
Proof. intros s o r H. injection H as <- <-. exists (pre ++ s). split; [reflexivity|]. discriminate. Qed.

Lemma shows_print data x : shows data (print (data, x)) (fun _ => []).
Proof.
  intros s o r H. injection H as <- <-. exists s. cbn. rewrite app_nil_r.
  split; [reflexivity|]. congruence.
Qed.

Lemma shows_reg pre reg : shows pre (dec_reg reg) (fun _ => pre).
Proof.
  intros s o r H. injection H as <- <-. exists (pre ++ s). split; [reflexivity|].
  unfold format_reg. destruct (enum_name _ _); congruence.
Qed.

Lemma shows_value n : shows [] (read_value n) (fun d => d).
Proof.
  intros s o r H. injection H as <- <-. exists s. split; [reflexivity|].
  intros a s' E. injection E as <- <-. now rewrite firstn_skipn.
Qed.

Lemma shows_struct t : shows [] (read_struct t) fst.
Proof.
  unfold read_struct. eapply shows_bind; [apply shows_value|]. intro d. cbn beta.
  destruct (_ =? _)%nat; [|apply shows_raise]. exact (shows_ret (d, unpack t d) fst).
Qed.

Lemma shows_varuint_loop n : forall res data shift,
  shows data (dec_varuint_loop n res data shift) fst.
Proof.
  induction n as [|n IH]; intros res data shift; cbn [dec_varuint_loop]; [apply shows_raise|].
  apply (shows_bind data read_byte (fun b => data ++ [b])).
  - intros s o r H. destruct s as [|b s]; injection H as <- <-; eexists; (split; [reflexivity|]).
    + discriminate.
    + intros a s' E. injection E as <- <-. now rewrite <- app_assoc.
  - intro b. cbv zeta. destruct (_ =? 0); [|apply IH].
    exact (shows_ret (data ++ [b], _) fst).
Qed.

Lemma shows_varuint : shows [] dec_varuint fst.
Proof. apply shows_varuint_loop. Qed.

Lemma shows_header data upper t num : shows data (read_header data upper t num) (fun _ => []).
Proof.
  unfold read_header. apply (shows_bind _ _ (fun _ => [])).
  - destruct (0 <? num).
    + eapply shows_bind; [apply shows_print|]. intro. exact (shows_ret _ (fun _ => [])).
    + eapply shows_bind; [apply shows_print|]. intro.
      eapply shows_bind; [apply shows_varuint|]. intros [d v]. cbn [fst].
      eapply shows_bind; [apply shows_print|]. intro. exact (shows_ret _ (fun _ => [])).
  - intro n. eapply shows_bind; [apply shows_varuint|]. intros [d v]. cbn [fst].
    eapply shows_bind; [apply shows_reg|]. intro nm. cbn beta.
    eapply shows_bind; [apply shows_print|]. intro. exact (shows_ret _ (fun _ => [])).
Qed.

Lemma shows_values n : forall t reg, shows [] (read_values n t reg) (fun _ => []).
Proof.
  induction n as [|n IH]; intros t reg; cbn [read_values]; [exact (shows_ret _ (fun _ => []))|].
  eapply shows_bind; [apply shows_struct|]. intros [d v]. cbn [fst].
  eapply shows_bind; [apply shows_reg|]. intro nm. cbn beta.
  eapply shows_bind; [apply shows_print|]. intro. apply IH.
Qed.

Ltac showing :=
  repeat first
    [ apply shows_print
    | eapply shows_bind; [apply shows_print|]; intro; cbn beta
    | eapply shows_bind; [apply shows_varuint|]; intros [? ?]; cbn [fst]
    | eapply shows_bind; [apply shows_reg|]; intro; cbn beta
    | eapply shows_bind; [apply shows_value|]; intro; cbn beta ].

Lemma shows_subframe : shows [] decode_subframe (fun _ => []).
Proof.
  unfold decode_subframe. eapply shows_bind; [apply shows_struct|]. intros [d v]. cbn [fst].
  cbv zeta. set (cmd := match v with PInt z => z | PFloat _ => 0 end).
  destruct (_ =? 0x10).
  { eapply shows_bind; [apply shows_header|]. intro. exact (shows_ret _ (fun _ => [])). }
  destruct (_ || _).
  { eapply shows_bind; [apply shows_header|]. intros [n reg]. apply shows_values. }
  destruct ((cmd =? 0x31) || _); [showing|].
  destruct ((cmd =? 0x40) || _); [showing|].
  destruct (cmd =? 0x42); [showing|].
  destruct (cmd =? 0x50); showing.
Qed.

(** How the pieces end. *)
Definition ends {A} (d : dec A) : Prop := forall s o r, d s = (o, r) ->
  match r with
  | Ok (_, s') => (List.length s' <= List.length s)%nat
  | Raise e => In e [IndexError; RuntimeError; StructError; ValueError]
  end.

Lemma ends_bind {A B} (d : dec A) (f : A -> dec B) :
  ends d -> (forall a, ends (f a)) -> ends (dbind d f).
Proof.
  intros D F s o r H. unfold dbind in H. destruct (d s) as [o1 [[a s1]|e]] eqn:E.
  - destruct (f a s1) as [o2 r2] eqn:E2. injection H as <- <-.
    specialize (D _ _ _ E). specialize (F a _ _ _ E2). cbn in D. destruct r2 as [[? ?]|?]; [lia|exact F].
  - injection H as <- <-. exact (D _ _ _ E).
Qed.

Lemma ends_ret {A} (a : A) : ends (dret a).
Proof. intros s o r H. injection H as <- <-. lia. Qed.

Lemma ends_raise {A} e : In e [IndexError; RuntimeError; StructError; ValueError] ->
  ends (draise e : dec A).
Proof. intros I s o r H. injection H as <- <-. exact I. Qed.

Lemma ends_print l : ends (print l).
Proof. intros s o r H. injection H as <- <-. lia. Qed.

Lemma ends_reg reg : ends (dec_reg reg).
Proof.
  intros s o r H. injection H as <- <-. unfold format_reg.
  destruct (enum_name _ _); [lia|]. cbn. tauto.
Qed.

Lemma ends_value n : ends (read_value n).
Proof. intros s o r H. injection H as <- <-. rewrite skipn_length. lia. Qed.

Lemma ends_varuint : ends dec_varuint.
Proof.
  unfold dec_varuint. generalize 0 at 1 as res. generalize (@nil Z) as data. generalize 0 as shift.
  generalize 5%nat as n.
  induction n as [|n IH]; intros shift data res; cbn [dec_varuint_loop];
    [apply ends_raise; cbn; tauto|].
  apply ends_bind.
  - intros s o r H. destruct s as [|b s]; injection H as <- <-; cbn; [tauto|lia].
  - intro b. cbv zeta. destruct (_ =? 0); [apply ends_ret|apply IH].
Qed.

Lemma ends_struct t : ends (read_struct t).
Proof.
  unfold read_struct. apply ends_bind; [apply ends_value|]. intro d. cbn beta.
  destruct (_ =? _)%nat; [apply ends_ret|apply ends_raise; cbn; tauto].
Qed.

Ltac ending :=
  repeat first
    [ apply ends_print | apply ends_ret
    | apply ends_bind; [first [apply ends_print|apply ends_varuint|apply ends_reg
                              |apply ends_value|apply ends_struct]|];
      first [intros [? ?]|intro]; cbn beta iota ].

Lemma ends_header data upper t num : ends (read_header data upper t num).
Proof.
  unfold read_header. apply ends_bind; [destruct (0 <? num); ending|]. intro n. ending.
Qed.

Lemma ends_values n : forall t reg, ends (read_values n t reg).
Proof.
  induction n as [|n IH]; intros t reg; cbn [read_values]; ending. apply IH.
Qed.

(** One round takes at least a byte. *)
Lemma subframe_ends s o r : s <> [] -> decode_subframe s = (o, r) ->
  match r with
  | Ok (_, s') => (List.length s' < List.length s)%nat
  | Raise e => In e [IndexError; RuntimeError; StructError; ValueError]
  end.
Proof.
  intros N H. destruct s as [|b s]; [contradiction|]. unfold decode_subframe in H.
  unfold dbind at 1 in H. cbn [read_struct read_value dbind resolution_size firstn skipn
    List.length Nat.eqb dret app] in H.
  match type of H with (let '(_, _) := ?g s in _) = _ => assert (E : ends g) end.
  { cbv zeta. set (cmd := match _ with PInt z => z | PFloat _ => 0 end).
    destruct (_ =? 0x10). { apply ends_bind; [apply ends_header|]. intro. apply ends_ret. }
    destruct (_ || _). { apply ends_bind; [apply ends_header|]. intros [? ?]. apply ends_values. }
    destruct ((cmd =? 0x31) || _); [ending|].
    destruct ((cmd =? 0x40) || _); [ending|].
    destruct (cmd =? 0x42); [ending|].
    destruct (cmd =? 0x50); ending. }
  match type of H with (let '(_, _) := ?g s in _) = _ => destruct (g s) as [o2 r2] eqn:E2 end.
  injection H as <- <-. specialize (E _ _ _ E2). cbn [List.length].
  destruct r2 as [[? ?]|?]; [lia|exact E].
Qed.

Lemma loop_ends : forall fuel s o r, (List.length s <= fuel)%nat ->
  decode_loop fuel s = (o, r) ->
  exists k, s = List.concat (map fst o) ++ k /\
  match r with
  | Ok (_, _) => k = []
  | Raise e => In e [IndexError; RuntimeError; StructError; ValueError]
  end.
Proof.
  induction fuel as [|fuel IH]; intros s o r L H; destruct s as [|b s]; cbn [decode_loop] in H.
  - injection H as <- <-. exists []. split; reflexivity.
  - cbn in L. lia.
  - injection H as <- <-. exists []. split; reflexivity.
  - unfold dbind in H. destruct (decode_subframe (b :: s)) as [o1 r1] eqn:E.
    pose proof (subframe_ends (b :: s) o1 r1 ltac:(discriminate) E) as EE.
    destruct (shows_subframe _ _ _ E) as (k & E1 & K). cbn [app] in E1.
    destruct r1 as [[[] s1]|e].
    + destruct (decode_loop fuel s1) as [o2 r2] eqn:E2. injection H as <- <-.
      specialize (K tt s1 eq_refl). cbn [app] in K. subst k.
      destruct (IH s1 o2 r2 ltac:(cbn [List.length] in *; lia) E2) as (k & E3 & X).
      exists k. split; [|exact X]. rewrite E1, E3, map_app, concat_app, app_assoc. reflexivity.
    + injection H as <- <-. exists k. split; [exact E1|exact EE].
Qed.

(** For every frame the program ends.  The bytes it shows are a beginning of
    the frame, in order, and all of the frame unless it ends with an
    exception. *)
Theorem C65_every_byte : forall frame lines e, decode_frame frame = (lines, e) ->
  match e with
  | None => List.concat (map fst lines) = frame
  | Some e => In e [IndexError; RuntimeError; StructError; ValueError] /\
              exists rest, frame = List.concat (map fst lines) ++ rest
  end.
Proof.
  intros l ls e H. unfold decode_frame in H.
  destruct (decode_loop (List.length l) l) as [o r] eqn:E.
  destruct (loop_ends _ _ _ _ (Nat.le_refl _) E) as (k & E1 & X).
  destruct r as [[? ?]|x]; injection H as <- <-.
  - subst k. rewrite app_nil_r in E1. now symmetry.
  - split; [exact X|]. now exists k.
Qed.

(** ** What the lines say *)

(** [runs d bytes lines a]: in front of anything, [d] takes [bytes], prints
    [lines] and gives [a]. *)
Definition runs {A} (d : dec A) (bytes : list Z) (lines : list line) (a : A) : Prop :=
  forall rest, d (bytes ++ rest) = (lines, Ok (a, rest)).

Lemma runs_bind {A B} (d : dec A) (f : A -> dec B) b1 l1 a b2 l2 c :
  runs d b1 l1 a -> runs (f a) b2 l2 c -> runs (dbind d f) (b1 ++ b2) (l1 ++ l2) c.
Proof.
  intros D F rest. unfold dbind. rewrite <- app_assoc, D, F. reflexivity.
Qed.

Lemma runs_then {A B} (d : dec A) (f : A -> dec B) b1 a b2 l2 c :
  runs d b1 [] a -> runs (f a) b2 l2 c -> runs (dbind d f) (b1 ++ b2) l2 c.
Proof. intros D F. exact (runs_bind _ _ _ _ _ _ _ _ D F). Qed.

Lemma runs_end {A B} (d : dec A) (f : A -> dec B) b a l c :
  runs d b [] a -> runs (f a) [] l c -> runs (dbind d f) b l c.
Proof. intros D F. rewrite <- (app_nil_r b). exact (runs_then _ _ _ _ _ _ _ D F). Qed.

Lemma runs_print {B} l (f : unit -> dec B) b2 l2 c :
  runs (f tt) b2 l2 c -> runs (dbind (print l) f) b2 (l :: l2) c.
Proof. intro F. exact (runs_bind (print l) f [] [l] tt _ _ _ (fun _ => eq_refl) F). Qed.

Lemma runs_ret {A} (a : A) : runs (dret a) [] [] a.
Proof. intro rest. reflexivity. Qed.

Lemma runs_last l : runs (print l) [] [l] tt.
Proof. intro rest. reflexivity. Qed.

Lemma varuint_loop_runs : forall n vu rest v res data shift,
  bytes_ok vu -> 0 <= shift -> 0 <= res < 2 ^ shift ->
  spec_varuint_n n (vu ++ rest) = Some (v, rest) ->
  dec_varuint_loop n res data shift (vu ++ rest)
  = ([], Ok ((data ++ vu, res + v * 2 ^ shift), rest)).
Proof.
  induction n as [|n IH]; intros vu rest v res data shift B S R H; [discriminate|].
  destruct vu as [|b vu].
  { exfalso. cbn [app] in H.
    assert (X : forall n l v l', spec_varuint_n n l = Some (v, l') ->
                (List.length l' < List.length l)%nat).
    { clear. induction n as [|n IH]; intros l v l' H; cbn in H; [discriminate|].
      destruct l as [|b l]; [discriminate|]. destruct (b <? 128); [injection H as <- <-; cbn; lia|].
      destruct (spec_varuint_n n l) as [[v1 l1]|] eqn:E; [|discriminate].
      injection H as <- <-. specialize (IH _ _ _ E). cbn. lia. }
    specialize (X _ _ _ _ H). lia. }
  inversion B as [|? ? Bb B']; subst. unfold byte_ok in Bb.
  cbn [app spec_varuint_n] in H. cbn [dec_varuint_loop app]. unfold dbind at 1. cbn [read_byte].
  cbv zeta. rewrite land_127.
  assert (OR : Z.lor res (Z.shiftl (b mod 128) shift) = res + (b mod 128) * 2 ^ shift).
  { apply lor_shiftl_add; lia. }
  rewrite OR.
  assert (T : (Z.land b 128 =? 0) = (b <? 128)) by (apply land_128; lia).
  rewrite T. destruct (Z.ltb_spec b 128).
  - injection H as <- E. assert (vu = []) as ->.
    { apply (f_equal (@List.length Z)) in E. rewrite app_length in E. destruct vu; [reflexivity|cbn in E; lia]. }
    cbn [app dret]. rewrite Z.mod_small by lia. reflexivity.
  - destruct (spec_varuint_n n (vu ++ rest)) as [[v1 l1]|] eqn:E; [|discriminate].
    assert (v = b - 128 + 128 * v1) as -> by congruence. assert (l1 = rest) as -> by congruence.
    assert (P : 2 ^ (shift + 7) = 2 ^ shift * 128) by (rewrite Z.pow_add_r by lia; reflexivity).
    assert (M : b mod 128 = b - 128) by (symmetry; apply Zmod_unique with 1; lia).
    assert (0 < 2 ^ shift) by (apply Z.pow_pos_nonneg; lia).
    rewrite (IH vu rest v1 (res + b mod 128 * 2 ^ shift) (data ++ [b]) (shift + 7) B' ltac:(lia) ltac:(rewrite P, M; nia) E).
    cbn [app]. rewrite <- app_assoc. cbn [app]. rewrite P, M.
    match goal with |- ([], Ok (_, ?x, _)) = ([], Ok (_, ?y, _)) => replace x with y by ring end.
    reflexivity.
Qed.

Lemma varuint_runs vu v : is_varuint vu v -> runs dec_varuint vu [] (vu, v).
Proof.
  intros [B H] rest. unfold dec_varuint.
  rewrite (varuint_loop_runs 5 vu rest v 0 [] 0 B ltac:(lia) ltac:(lia) (H rest)).
  cbn [app]. do 3 f_equal. f_equal. lia.
Qed.

Lemma enum_name_in : forall t k s, NoDup (map fst t) ->
  In (k, s) t -> enum_name t k = Some s.
Proof.
  induction t as [|[k' s'] t IH]; intros k s N I; [contradiction|]. cbn in N. inversion N; subst.
  cbn [enum_name]. destruct (Z.eqb_spec k' k).
  - subst k'. destruct I as [E|I]; [congruence|]. exfalso. apply H1.
    change k with (fst (k, s)). now apply in_map.
  - destruct I as [E|I]; [congruence|]. now apply IH.
Qed.

Lemma enum_name_some : forall t k s, enum_name t k = Some s -> In (k, s) t.
Proof.
  induction t as [|[k' s'] t IH]; intros k s H; [discriminate|]. cbn in H.
  destruct (Z.eqb_spec k' k); [left; congruence|right; auto].
Qed.

Lemma enum_name_none t k : enum_name t k = None -> ~ In k (map fst t).
Proof.
  induction t as [|[k' s'] t IH]; intros H I; [contradiction|]. cbn in *.
  destruct (Z.eqb_spec k' k); [discriminate|]. destruct I; [congruence|now apply IH].
Qed.

Fixpoint nodupb (l : list Z) : bool :=
  match l with [] => true | x :: l => negb (existsb (Z.eqb x) l) && nodupb l end.

Lemma nodupb_ok l : nodupb l = true -> NoDup l.
Proof.
  induction l as [|x l IH]; intro H; constructor; cbn in H; apply andb_prop in H; destruct H as [H1 H2].
  - intro I. apply negb_true_iff in H1. apply Bool.not_true_iff_false in H1. apply H1.
    apply existsb_exists. exists x. split; [exact I|apply Z.eqb_refl].
  - now apply IH.
Qed.

Lemma register_numbers : NoDup (map fst register_names).
Proof. apply nodupb_ok. vm_compute. reflexivity. Qed.

Lemma mode_numbers : NoDup (map fst mode_names).
Proof. apply nodupb_ok. vm_compute. reflexivity. Qed.

Lemma reg_runs reg name : In (reg, name) register_names -> runs (dec_reg reg) [] [] name.
Proof.
  intros I rest. unfold dec_reg, format_reg.
  rewrite (enum_name_in _ _ _ register_numbers I). reflexivity.
Qed.

(** The decoder's scale of a register is the documented one. *)
Definition scale_matches (reg : Z) : Prop :=
  match register_meaning reg with
  | Some (MUnit u) =>
      if existsb (Z.eqb reg) unit_left_out then scale_type_of scale_types reg = None
      else exists s, scale_type_of scale_types reg = Some s /\
           s8 s = unit_float u INT8 /\ s16 s = unit_float u INT16 /\ s32 s = unit_float u INT32
  | _ => scale_type_of scale_types reg = None
  end.

Lemma scales_match reg name : In (reg, name) register_names -> scale_matches reg.
Proof.
  intro I.
  assert (A : Forall scale_matches (map fst register_names)).
  { repeat (constructor;
      [vm_compute; first [reflexivity | eexists; repeat split; reflexivity]|]). constructor. }
  rewrite Forall_forall in A. apply A. change reg with (fst (reg, name)). now apply in_map.
Qed.

(** A float equal to the number of a mode truncates to it. *)
Lemma mode_float z x : In z (map fst mode_names) -> feqb (float_of_Z z) x = true ->
  isfinite x = true /\ ftrunc x = z.
Proof.
  intros I E.
  assert (A : Forall (fun z => forall x, feqb (float_of_Z z) x = true ->
                isfinite x = true /\ ftrunc x = z) (map fst mode_names)).
  { assert (Q : forall m e x, SFeqb (S754_finite false m e) x = true -> x = S754_finite false m e).
    { clear. intros m e x H. unfold SFeqb, SFcompare in H. destruct x as [s|s| |s m' e']; try discriminate.
      - destruct s; discriminate.
      - destruct s; [discriminate|]. destruct (Z.compare_spec e e') as [E|E|E]; try discriminate.
        rewrite Pos.compare_cont_spec in H. subst.
        destruct (Pos.compare_spec m m') as [E|E|E]; cbn in H; try discriminate. now subst. }
    constructor.
    { intros y H. destruct y as [s|s| |s m e]; try (destruct s; discriminate); try discriminate.
      split; reflexivity. }
    repeat (constructor;
      [intros y H;
       match type of H with feqb ?f _ = true => let v := eval vm_compute in f in change f with v in H end;
       apply Q in H; subst y; vm_compute; split; reflexivity|]).
    constructor. }
  rewrite Forall_forall in A. exact (A z I x E).
Qed.

(** A value of the type a resolution has. *)
Definition of_type (r : resolution) (v : pyval) : Prop :=
  match r, v with F32, PFloat _ => True | F32, _ => False | _, PInt _ => True | _, _ => False end.

Lemma note_documented reg name r v : In (reg, name) register_names -> r <> IGNORE ->
  of_type r v ->
  documented_note reg r v (format_value reg r v).
Proof.
  intros I R T. pose proof (scales_match _ _ I) as S. unfold documented_note, format_value.
  destruct (reg =? 0).
  - destruct v as [z|x]; cbn [mode_name].
    + destruct (enum_name mode_names z) as [n|] eqn:E.
      * left. exists n. split; [now apply enum_name_some|reflexivity].
      * right. split; [now apply enum_name_none|reflexivity].
    + destruct (isfinite x && feqb (float_of_Z (ftrunc x)) x) eqn:B.
      * apply andb_prop in B. destruct B as [B1 B2].
        destruct (enum_name mode_names (ftrunc x)) as [n|] eqn:E.
        -- left. exists (ftrunc x), n. split; [now apply enum_name_some|now split].
        -- right. split; [|reflexivity]. intros z Iz. destruct (feqb (float_of_Z z) x) eqn:F; [|reflexivity].
           destruct (mode_float _ _ Iz F) as [_ X]. apply enum_name_none in E. congruence.
      * right. split; [|reflexivity]. intros z Iz. destruct (feqb (float_of_Z z) x) eqn:F; [|reflexivity].
        destruct (mode_float _ _ Iz F) as [X Y]. rewrite X, Y, F in B. discriminate.
  - unfold scale_matches in S. unfold format_scaled, most_negative.
    destruct (register_meaning reg) as [[|u|u]|].
    + rewrite S. reflexivity.
    + destruct (existsb _ _).
      * rewrite S. destruct v; reflexivity.
      * destruct S as (s & -> & S8 & S16 & S32).
        destruct r, v; try contradiction; cbn [is_nan_code]; rewrite ?S8, ?S16, ?S32; try reflexivity.
    + rewrite S. reflexivity.
    + rewrite S. reflexivity.
Qed.

(** The bytes of a value as Python reads them. *)
Lemma unpack_python r raw : r <> IGNORE -> bytes_ok raw -> List.length raw = spec_width r ->
  unpack r raw = spec_python r raw.
Proof.
  intros R B L. unfold spec_python, unpack, spec_value, spec_signed, unpack_int.
  destruct r; try congruence; reflexivity.
Qed.

Lemma struct_runs r raw : r <> IGNORE -> bytes_ok raw -> List.length raw = spec_width r ->
  runs (read_struct r) raw [] (raw, spec_python r raw).
Proof.
  intros R B L rest. unfold read_struct, dbind, read_value.
  assert (W : resolution_size r = List.length raw) by (rewrite L; destruct r; reflexivity).
  rewrite W, firstn_app, firstn_all, Nat.sub_diag, firstn_O, app_nil_r, Nat.eqb_refl.
  rewrite skipn_app, skipn_all, Nat.sub_diag, skipn_O. cbn [app dret].
  now rewrite (unpack_python r raw R B L).
Qed.

Lemma python_shape r raw : r <> IGNORE ->
  of_type r (spec_python r raw).
Proof. intro R. destruct r; try congruence; exact I. Qed.

(** The documented note is unique. *)
Lemma documented_unique reg name r v n : In (reg, name) register_names -> r <> IGNORE ->
  of_type r v ->
  documented_note reg r v n -> n = format_value reg r v.
Proof.
  intros I R T D. pose proof (note_documented reg name r v I R T) as D'.
  unfold documented_note in *. destruct (reg =? 0).
  - destruct v as [z|x].
    + destruct D as [(a & I1 & ->)|[N1 ->]], D' as [(b & I2 & ->)|[N2 ->]]; try reflexivity.
      * apply (enum_name_in _ _ _ mode_numbers) in I1, I2. congruence.
      * exfalso. apply N2. change z with (fst (z, a)). now apply in_map.
      * exfalso. apply N1. change z with (fst (z, b)). now apply in_map.
    + destruct D as [(z1 & a & I1 & F1 & ->)|[N1 ->]], D' as [(z2 & b & I2 & F2 & ->)|[N2 ->]];
        try reflexivity.
      * pose proof (in_map fst _ _ I1) as J1. pose proof (in_map fst _ _ I2) as J2. cbn [fst] in *.
        destruct (mode_float _ _ J1 F1) as [_ X1]. destruct (mode_float _ _ J2 F2) as [_ X2].
        apply (enum_name_in _ _ _ mode_numbers) in I1, I2. congruence.
      * exfalso. pose proof (in_map fst _ _ I1) as J1. cbn [fst] in J1. rewrite (N2 _ J1) in F1. discriminate.
      * exfalso. pose proof (in_map fst _ _ I2) as J2. cbn [fst] in J2. rewrite (N1 _ J2) in F2. discriminate.
  - destruct (register_meaning reg) as [[|u|u]|], v; try congruence.
    destruct (existsb _ _); congruence.
Qed.

Lemma values_run r : r <> IGNORE -> forall reg raws lines, value_lines r reg raws lines ->
  runs (read_values (List.length raws) r reg) (List.concat raws) lines tt.
Proof.
  intros R reg raws lines V. induction V as [reg|reg raw raws name n lines B L I D V IH].
  - apply runs_ret.
  - cbn [List.length read_values List.concat].
    eapply runs_then; [apply struct_runs; eassumption|]. cbn beta iota.
    rewrite <- (documented_unique reg name r _ n I R (python_shape r raw R) D).
    apply (runs_then _ _ [] name); [now apply reg_runs|]. cbn beta.
    apply runs_print. exact IH.
Qed.

Lemma header_runs base r n start bytes lines : header base r n start bytes lines ->
  exists c tail, bytes = c :: tail /\
  (c = base + 4 * spec_code r + n /\ 1 <= n <= 3 /\
   runs (read_header [c] base r n) tail lines (n, start) \/
   c = base + 4 * spec_code r /\
   runs (read_header [c] base r 0) tail lines (n, start)).
Proof.
  intros [n' vu start' name N V I|n' vn vu start' name VN V I].
  - eexists _, _. split; [reflexivity|]. left. split; [reflexivity|]. split; [exact N|].
    unfold read_header. replace (0 <? n') with true by lia.
    apply (runs_bind _ _ [] [_] n' vu).
    { apply runs_print, runs_ret. }
    eapply runs_end; [apply varuint_runs; exact V|]. cbn beta iota.
    apply (runs_then _ _ [] name); [now apply reg_runs|]. cbn beta.
    apply runs_print, runs_ret.
  - eexists _, _. split; [reflexivity|]. right. split; [reflexivity|].
    unfold read_header. cbn [Z.ltb Z.compare].
    change ([([base + 4 * spec_code r], SHead base r None); (vn, SCount n'); (vu, SStart start' name)])
      with ([([base + 4 * spec_code r], SHead base r None); (vn, SCount n')] ++ [(vu, SStart start' name)]).
    apply (runs_bind _ _ vn _ n').
    { apply runs_print. eapply runs_end; [apply varuint_runs; exact VN|]. cbn beta iota.
      apply runs_print, runs_ret. }
    eapply runs_end; [apply varuint_runs; exact V|]. cbn beta iota.
    apply (runs_then _ _ [] name); [now apply reg_runs|]. cbn beta.
    apply runs_print, runs_ret.
Qed.

(** Reading the first byte of a subframe. *)
Lemma byte_runs c : runs (read_struct INT8) [c] [] ([c], PInt (unpack_int 1 [c])).
Proof. intro rest. reflexivity. Qed.

Ltac command :=
  unfold decode_subframe;
  match goal with |- runs _ (?c :: ?tail) _ _ => change (c :: tail) with ([c] ++ tail) end;
  eapply runs_then; [apply byte_runs|]; cbn beta iota;
  match goal with |- context [unpack_int 1 [?c]] =>
    let v := eval vm_compute in (unpack_int 1 [c]) in change (unpack_int 1 [c]) with v end;
  cbv zeta;
  repeat match goal with
  | |- context [Z.land ?a ?b] => let v := eval vm_compute in (Z.land a b) in change (Z.land a b) with v
  | |- context [Z.shiftr ?a ?b] => let v := eval vm_compute in (Z.shiftr a b) in change (Z.shiftr a b) with v
  | |- context [res_of_code ?a] => let v := eval vm_compute in (res_of_code a) in change (res_of_code a) with v
  end;
  cbn [Z.eqb Pos.eqb orb].

Lemma subframe_runs bytes lines : explained bytes lines ->
  bytes <> [] /\ runs decode_subframe bytes lines tt.
Proof.
  intros [|r n start b ls R H|base r start raws b ls vls BS R H V|cmd vr reg name ve code C VR I VE
    |cmd vc ch vn data C VC VN|vc ch vn n VC VN].
  - split; [discriminate|]. command. apply runs_last.
  - destruct (header_runs _ _ _ _ _ _ H) as (c & tail & -> & [(-> & N & X)|(-> & X)]);
      (split; [discriminate|]).
    + assert (N' : n = 1 \/ n = 2 \/ n = 3) by lia.
      destruct r; try congruence; destruct N' as [->|[->| ->]]; command;
      rewrite <- (app_nil_r tail), <- (app_nil_r ls);
      (eapply runs_bind; [exact X|]; apply runs_ret).
    + destruct r; try congruence; command;
      rewrite <- (app_nil_r tail), <- (app_nil_r ls);
      (eapply runs_bind; [exact X|]; apply runs_ret).
  - destruct (header_runs _ _ _ _ _ _ H) as (c & tail & -> & [(-> & N & X)|(-> & X)]);
      (split; [discriminate|]); rewrite <- app_comm_cons.
    + pose proof (values_run r R _ _ _ V) as VR. rewrite <- (Nat2Z.id (List.length raws)) in VR.
      remember (Z.of_nat (List.length raws)) as n eqn:En.
      assert (N' : n = 1 \/ n = 2 \/ n = 3) by lia. clear En N.
      destruct BS as [-> | ->]; destruct r; try congruence; destruct N' as [->|[->| ->]]; command;
      (eapply runs_bind; [exact X|exact VR]).
    + pose proof (values_run r R _ _ _ V) as VR. rewrite <- (Nat2Z.id (List.length raws)) in VR.
      destruct BS as [-> | ->]; destruct r; try congruence; command;
      (eapply runs_bind; [exact X|exact VR]).
  - split; [discriminate|]. destruct C as [-> | ->]; command; apply runs_print;
      (eapply runs_then; [apply varuint_runs; exact VR|]); cbn beta iota;
      (apply (runs_then _ _ [] name); [now apply reg_runs|]); cbn beta; apply runs_print;
      (eapply runs_end; [apply varuint_runs; exact VE|]); cbn beta iota; apply runs_last.
  - split; [discriminate|]. destruct C as [-> | ->]; command; apply runs_print;
      (eapply runs_then; [apply varuint_runs; exact VC|]); cbn beta iota; apply runs_print;
      (eapply runs_then; [apply varuint_runs; exact VN|]); cbn beta iota; apply runs_print;
      rewrite Nat2Z.id; (apply (runs_end _ _ data data); [|apply runs_last]);
      intro rest; unfold read_value;
      rewrite firstn_app, firstn_all, Nat.sub_diag, firstn_O, app_nil_r;
      rewrite skipn_app, skipn_all, Nat.sub_diag, skipn_O; reflexivity.
  - split; [discriminate|]. command; apply runs_print;
      (eapply runs_then; [apply varuint_runs; exact VC|]); cbn beta iota; apply runs_print;
      (eapply runs_end; [apply varuint_runs; exact VN|]); cbn beta iota; apply runs_last.
Qed.

Lemma frame_runs l ls : frame_explained l ls -> forall fuel, (List.length l <= fuel)%nat ->
  decode_loop fuel l = (ls, Ok (tt, [])).
Proof.
  intro F. induction F as [|bytes lines rest more X F IH]; intros fuel L.
  - destruct fuel; reflexivity.
  - destruct (subframe_runs _ _ X) as [N R]. rewrite app_length in L.
    destruct bytes as [|b bytes]; [contradiction|]. destruct fuel as [|fuel]; [cbn in L; lia|].
    cbn [decode_loop]. rewrite <- app_comm_cons. cbn beta iota.
    unfold dbind. rewrite app_comm_cons, R, IH by (cbn in L; lia). reflexivity.
Qed.

(** A frame made of the documented subframes, whose registers have names, is
    explained as documented. *)
Theorem C65_explained : forall frame lines, frame_explained frame lines ->
  decode_frame frame = (lines, None).
Proof.
  intros l ls F. unfold decode_frame. rewrite (frame_runs l ls F _ (Nat.le_refl _)). reflexivity.
Qed.

(** ** The frames the controller understands *)

Lemma varuint_split : forall n l v l', bytes_ok l -> spec_varuint_n n l = Some (v, l') ->
  exists vu, l = vu ++ l' /\ bytes_ok vu /\ bytes_ok l' /\ 0 <= v /\
  forall rest, spec_varuint_n n (vu ++ rest) = Some (v, rest).
Proof.
  induction n as [|n IH]; intros l v l' B H; [discriminate|].
  destruct l as [|b l]; [discriminate|]. inversion B as [|? ? Bb B']; subst. unfold byte_ok in Bb.
  cbn [spec_varuint_n] in H. destruct (Z.ltb_spec b 128).
  - injection H as <- <-. exists [b]. split; [reflexivity|]. split; [constructor; [exact Bb|constructor]|].
    split; [exact B'|]. split; [lia|]. intro rest. cbn [app spec_varuint_n].
    replace (b <? 128) with true by lia. reflexivity.
  - destruct (spec_varuint_n n l) as [[v1 l1]|] eqn:E; [|discriminate].
    assert (v = b - 128 + 128 * v1) as -> by congruence. assert (l1 = l') as -> by congruence.
    destruct (IH _ _ _ B' E) as (vu & -> & B1 & B2 & P & F).
    exists (b :: vu). split; [reflexivity|]. split; [constructor; assumption|].
    split; [exact B2|]. split; [lia|]. intro rest. cbn [app spec_varuint_n].
    replace (b <? 128) with false by lia. now rewrite F.
Qed.

Lemma varuint_of_spec l v l' : bytes_ok l -> spec_varuint l = Some (v, l') ->
  exists vu, l = vu ++ l' /\ is_varuint vu v /\ bytes_ok l' /\ 0 <= v.
Proof.
  intros B H. destruct (varuint_split 5 l v l' B H) as (vu & E & B1 & B2 & P & F).
  exists vu. repeat split; auto.
Qed.

Lemma named_dec reg : (exists name, In (reg, name) register_names)
                      \/ enum_name register_names reg = None.
Proof.
  destruct (enum_name register_names reg) as [s|] eqn:E; [left|right; reflexivity].
  exists s. now apply enum_name_some.
Qed.

Lemma not_named reg : enum_name register_names reg = None -> ~ named reg.
Proof.
  intros E [s I]. rewrite (enum_name_in _ _ _ register_numbers I) in E. discriminate.
Qed.

(** A register subframe, from its first byte. *)
Lemma register_subframe c s : 0 <= c < 0x30 ->
  decode_subframe (c :: s)
  = dbind (read_header [c] (16 * (c / 16)) (spec_resolution ((c / 4) mod 4)) (c mod 4))
      (fun '(count, start) =>
         if c / 16 =? 1 then dret tt
         else read_values (Z.to_nat count) (spec_resolution ((c / 4) mod 4)) start) s.
Proof.
  intro H. unfold decode_subframe. unfold dbind at 1.
  cbn [read_struct read_value dbind resolution_size firstn skipn List.length Nat.eqb dret app unpack
       int_width].
  assert (K : In c (map Z.of_nat (seq 0 48))).
  { apply in_map_iff. exists (Z.to_nat c). split; [lia|]. apply in_seq. lia. }
  revert K. clear H. intro K.
  cbn in K.
  cbv zeta.
  repeat (destruct K as [<-|K];
    [match goal with |- context [unpack_int 1 [?c]] =>
       let v := eval vm_compute in (unpack_int 1 [c]) in change (unpack_int 1 [c]) with v end;
     repeat match goal with
     | |- context [Z.land ?a ?b] => let v := eval vm_compute in (Z.land a b) in change (Z.land a b) with v
     | |- context [Z.shiftr ?a ?b] => let v := eval vm_compute in (Z.shiftr a b) in change (Z.shiftr a b) with v
     | |- context [res_of_code ?a] => let v := eval vm_compute in (res_of_code a) in change (res_of_code a) with v
     end;
     cbn [Z.eqb Pos.eqb orb];
     match goal with |- context [16 * (?c / 16)] =>
       let v := eval vm_compute in (16 * (c / 16)) in change (16 * (c / 16)) with v;
       let v := eval vm_compute in (c / 16) in change (c / 16) with v;
       let v := eval vm_compute in (spec_resolution ((c / 4) mod 4)) in
         change (spec_resolution ((c / 4) mod 4)) with v;
       let v := eval vm_compute in (c mod 4) in change (c mod 4) with v end;
     cbn [Z.eqb Pos.eqb]; unfold dbind;
     match goal with |- context [read_header ?a ?b ?c ?d s] =>
       destruct (read_header a b c d s) as [o [[[? ?] ?]|?]] end;
     first [reflexivity | cbn [dret]; destruct (read_values _ _ _ _); reflexivity]|]).
  contradiction.
Qed.

Lemma span_cons {A} (f : Z -> A) reg n :
  map (fun i => f (reg + Z.of_nat i)) (seq 0 (S n))
  = f reg :: map (fun i => f (reg + 1 + Z.of_nat i)) (seq 0 n).
Proof.
  cbn [seq map]. rewrite Z.add_0_r. f_equal. rewrite <- seq_shift, map_map.
  apply map_ext. intro i. f_equal. lia.
Qed.

Lemma bytes_ok_app a b : bytes_ok (a ++ b) -> bytes_ok a /\ bytes_ok b.
Proof. intro H. now apply Forall_app in H. Qed.

Lemma values_cases k r : r <> IGNORE -> k <> KRead -> forall n reg l acc l',
  bytes_ok l -> spec_values k r n reg l = Some (acc, l') ->
  exists raws, l = List.concat raws ++ l' /\ List.length raws = n /\ bytes_ok l' /\
  ((Forall named (map (fun i => reg + Z.of_nat i) (seq 0 n)) /\
    exists vls, value_lines r reg raws vls /\
      forall c more, told k r c (vls ++ more) = map telling_of acc ++ told k r c more) \/
   (~ Forall named (map (fun i => reg + Z.of_nat i) (seq 0 n)) /\
    forall rest, exists o, read_values n r reg (List.concat raws ++ rest) = (o, Raise ValueError))).
Proof.
  intros R K. induction n as [|n IH]; intros reg l acc l' B H.
  - injection H as <- <-. exists []. split; [reflexivity|]. split; [reflexivity|]. split; [exact B|].
    left. split; [constructor|]. exists []. split; [constructor|]. reflexivity.
  - cbn [spec_values] in H.
    replace (match k with KRead => 0%nat | _ => spec_width r end) with (spec_width r) in H
      by (destruct k; congruence).
    destruct (Nat.ltb_spec (List.length l) (spec_width r)); [discriminate|].
    set (raw := firstn (spec_width r) l) in *. set (l1 := skipn (spec_width r) l) in *.
    assert (El : l = raw ++ l1) by (symmetry; apply firstn_skipn).
    destruct (spec_values k r n (reg + 1) l1) as [[acc1 l2]|] eqn:E; [|discriminate].
    injection H as <- <-. rewrite El in B. apply bytes_ok_app in B. destruct B as [B1 B2].
    destruct (IH _ _ _ _ B2 E) as (raws & E1 & L & B3 & C).
    assert (Lr : List.length raw = spec_width r) by (apply firstn_length_le; lia).
    exists (raw :: raws). cbn [List.concat List.length].
    split; [rewrite El, E1, app_assoc; reflexivity|]. split; [now rewrite L|]. split; [exact B3|].
    rewrite (span_cons (fun x => x)).
    destruct (named_dec reg) as [[name I]|U].
    + destruct C as [(N & vls & V & T)|(N & X)].
      * left. split; [constructor; [now exists name|exact N]|].
        exists ((raw, SValue reg name (spec_python r raw) (format_value reg r (spec_python r raw))) :: vls).
        split.
        { constructor; try assumption.
          exact (note_documented reg name r _ I R (python_shape r raw R)). }
        intros c more. cbn [app told]. rewrite T. unfold spec_python.
        destruct k; [|congruence|]; cbn [map telling_of]; destruct (spec_value r raw); reflexivity.
      * right. split; [intro F; apply N; now inversion F|]. intro rest.
        rewrite <- app_assoc. cbn [read_values]. unfold dbind at 1.
        rewrite (struct_runs r raw R B1 Lr (List.concat raws ++ rest)). cbn [app].
        unfold dbind at 1. pose proof (reg_runs reg name I (List.concat raws ++ rest)) as RR.
        cbn [app] in RR. rewrite RR.
        unfold dbind, print. destruct (X rest) as [o ->]. eexists. reflexivity.
    + right. split; [intro F; apply (not_named _ U); now inversion F|]. intro rest.
      rewrite <- app_assoc. cbn [read_values]. unfold dbind at 1.
      rewrite (struct_runs r raw R B1 Lr (List.concat raws ++ rest)). cbn [app].
      unfold dbind at 1. unfold dec_reg, format_reg. rewrite U. eexists. reflexivity.
Qed.

Lemma reads_told r : forall n reg l acc l', spec_values KRead r n reg l = Some (acc, l') ->
  l' = l /\ map telling_of acc = map (fun i => (KRead, reg + Z.of_nat i, r, None)) (seq 0 n).
Proof.
  induction n as [|n IH]; intros reg l acc l' H; cbn [spec_values] in H.
  - injection H as <- <-. split; reflexivity.
  - cbn [Nat.ltb Nat.leb skipn firstn] in H.
    destruct (List.length l <? 0)%nat eqn:Z0; [discriminate|].
    destruct (spec_values KRead r n (reg + 1) l) as [[acc1 l1]|] eqn:E; [|discriminate].
    injection H as <- <-. destruct (IH _ _ _ _ E) as [-> T]. split; [reflexivity|].
    rewrite (span_cons (fun x => (KRead, x, r, None))). cbn [map telling_of]. now rewrite T.
Qed.

Lemma header_told base r n start bytes lines : header base r n start bytes lines ->
  forall k0 r0 c0 more, told k0 r0 c0 (lines ++ more)
  = let kind := if base =? 0x00 then KWrite else if base =? 0x10 then KRead else KReply in
    match kind with
    | KRead => map (fun i => (KRead, start + Z.of_nat i, r, None)) (seq 0 (Z.to_nat n))
    | _ => []
    end ++ told kind r n more.
Proof. intros [n' vu start' name N V I|n' vn vu start' name VN V I] k0 r0 c0 more; reflexivity. Qed.

(** A header, or the exception for a register without a name. *)
Lemma header_cases c l count l1 reg l2 : 0 <= c < 0x30 -> bytes_ok l ->
  (if c mod 4 =? 0 then spec_varuint l else Some (c mod 4, l)) = Some (count, l1) ->
  spec_varuint l1 = Some (reg, l2) ->
  0 <= count /\ bytes_ok l2 /\
  ((named reg /\ exists bytes lines, c :: l = bytes ++ l2 /\
      header (16 * (c / 16)) (spec_resolution ((c / 4) mod 4)) count reg bytes lines) \/
   (~ named reg /\ exists o,
      read_header [c] (16 * (c / 16)) (spec_resolution ((c / 4) mod 4)) (c mod 4) l
      = (o, Raise ValueError))).
Proof.
  intros C B H1 H2. set (r := spec_resolution ((c / 4) mod 4)). set (base := 16 * (c / 16)).
  assert (CODE : c = base + 4 * spec_code r + c mod 4).
  { assert (spec_code r = (c / 4) mod 4) as ->.
    { unfold r, spec_resolution. pose proof (Z.mod_pos_bound (c / 4) 4 ltac:(lia)).
      destruct (Z.eqb_spec ((c / 4) mod 4) 0); [cbn; lia|].
      destruct (Z.eqb_spec ((c / 4) mod 4) 1); [cbn; lia|].
      destruct (Z.eqb_spec ((c / 4) mod 4) 2); cbn; lia. }
    unfold base. Z.div_mod_to_equations. lia. }
  pose proof (Z.mod_pos_bound c 4 ltac:(lia)) as M.
  destruct (Z.eqb_spec (c mod 4) 0) as [Z0|Z0].
  - destruct (varuint_of_spec _ _ _ B H1) as (vn & -> & VN & B1 & P).
    destruct (varuint_of_spec _ _ _ B1 H2) as (vu & -> & VU & B2 & _).
    split; [exact P|]. split; [exact B2|].
    destruct (named_dec reg) as [[name I]|U].
    + left. split; [now exists name|]. eexists _, _.
      split; [|apply (h_long base r count vn vu reg name VN VU I)].
      rewrite Z0, Z.add_0_r in CODE. rewrite <- CODE. cbn [app]. now rewrite <- app_assoc.
    + right. split; [now apply not_named|]. rewrite Z0. unfold read_header. cbn [Z.ltb Z.compare].
      unfold dbind at 1. unfold dbind at 1. unfold print at 1. unfold dbind at 1.
      rewrite (varuint_runs vn count VN). unfold dbind at 1. unfold print at 1. cbn [dret app].
      unfold dbind at 1. rewrite (varuint_runs vu reg VU).
      unfold dbind at 1. unfold dec_reg, format_reg. rewrite U. eexists. reflexivity.
  - assert (count = c mod 4) as -> by congruence. assert (l1 = l) as -> by congruence.
    destruct (varuint_of_spec _ _ _ B H2) as (vu & -> & VU & B2 & _).
    split; [lia|]. split; [exact B2|].
    destruct (named_dec reg) as [[name I]|U].
    + left. split; [now exists name|]. eexists _, _.
      split; [|apply (h_short base r (c mod 4) vu reg name ltac:(lia) VU I)].
      rewrite <- CODE. reflexivity.
    + right. split; [now apply not_named|]. unfold read_header. replace (0 <? c mod 4) with true by lia.
      unfold dbind at 1. unfold dbind at 1. unfold print at 1. cbn [dret app].
      unfold dbind at 1. rewrite (varuint_runs vu reg VU).
      unfold dbind at 1. unfold dec_reg, format_reg. rewrite U. eexists. reflexivity.
Qed.

Lemma resolution_known t : spec_resolution t <> IGNORE.
Proof. unfold spec_resolution. repeat destruct (_ =? _); discriminate. Qed.

Lemma decode_cases : forall f l acc, bytes_ok l -> spec_decode_n f l = Some acc ->
  (Forall named (mentioned_n f l) /\
   exists ls, frame_explained l ls /\ forall k r c, told k r c ls = map telling_of acc) \/
  (~ Forall named (mentioned_n f l) /\
   forall fuel, (List.length l <= fuel)%nat -> exists o, decode_loop fuel l = (o, Raise ValueError)).
Proof.
  induction f as [|f IH]; intros l acc B H; cbn [spec_decode_n] in H.
  { destruct l; [|discriminate]. injection H as <-. left. split; [constructor|]. exists [].
    split; [constructor|]. reflexivity. }
  destruct l as [|c l].
  { injection H as <-. left. split; [constructor|]. exists []. split; [constructor|]. reflexivity. }
  inversion B as [|? ? Bc B']; subst. cbn [mentioned_n].
  destruct (Z.eqb_spec c 0x50) as [->|NC].
  { destruct (IH _ _ B' H) as [(N & ls & F & T)|(N & X)].
    - left. split; [exact N|]. exists ([([0x50], SName 0x50)] ++ ls).
      split; [exact (f_cons _ _ _ _ x_nop F)|]. intros. cbn [app told]. apply T.
    - right. split; [exact N|]. intros fuel L. destruct fuel as [|fuel]; [cbn in L; lia|].
      cbn [decode_loop]. unfold dbind.
      pose proof (proj2 (subframe_runs _ _ x_nop) l) as E. cbn [app] in E. rewrite E.
      destruct (X fuel ltac:(cbn in L; lia)) as [o ->]. eexists. reflexivity. }
  destruct ((0 <=? c) && (c <? 0x30)) eqn:RC; [|discriminate].
  assert (C : 0 <= c < 0x30) by lia.
  set (k := if c <? 0x10 then KWrite else if c <? 0x20 then KRead else KReply) in *.
  set (r := spec_resolution ((c / 4) mod 4)) in *.
  destruct (if c mod 4 =? 0 then spec_varuint l else Some (c mod 4, l)) as [[count l1]|] eqn:H1; [|discriminate].
  destruct (spec_varuint l1) as [[reg l2]|] eqn:H2; [|discriminate].
  destruct (spec_values k r (Z.to_nat count) reg l2) as [[acc1 l3]|] eqn:H3; [|discriminate].
  destruct (spec_decode_n f l3) as [acc2|] eqn:H4; [|discriminate]. injection H as <-.
  destruct (header_cases c l count l1 reg l2 C B' H1 H2) as (PC & B2 & HC). fold r in HC.
  assert (RI : r <> IGNORE) by apply resolution_known.
  assert (KB : k = if 16 * (c / 16) =? 0x00 then KWrite else if 16 * (c / 16) =? 0x10 then KRead else KReply).
  { unfold k. destruct (Z.ltb_spec c 16); [replace (c / 16) with 0 by (symmetry; apply Z.div_small; lia); reflexivity|].
    destruct (Z.ltb_spec c 32).
    - replace (c / 16) with 1 by (apply Z.div_unique with (c - 16); lia). reflexivity.
    - replace (c / 16) with 2 by (apply Z.div_unique with (c - 32); lia). reflexivity. }
  assert (K1 : (c / 16 =? 1) = match k with KRead => true | _ => false end).
  { unfold k. destruct (Z.ltb_spec c 16); [replace (c / 16) with 0 by (symmetry; apply Z.div_small; lia); reflexivity|].
    destruct (Z.ltb_spec c 32).
    - replace (c / 16) with 1 by (apply Z.div_unique with (c - 16); lia). reflexivity.
    - replace (c / 16) with 2 by (apply Z.div_unique with (c - 32); lia). reflexivity. }
  assert (RAISES : (exists o, decode_subframe (c :: l) = (o, Raise ValueError)) ->
    forall fuel, (List.length (c :: l) <= fuel)%nat ->
    exists o, decode_loop fuel (c :: l) = (o, Raise ValueError)).
  { intros [o E] fuel L. destruct fuel as [|fuel]; [cbn in L; lia|]. cbn [decode_loop].
    unfold dbind. rewrite E. eexists. reflexivity. }
  destruct HC as [(N0 & bytes & lines & EB & HD)|(N0 & o & E)].
  2:{ right. split; [intro F; apply N0; now inversion F|]. apply RAISES.
      rewrite (register_subframe c l C). fold r. unfold dbind. rewrite E. eexists. reflexivity. }
  (* the rest, after an explained subframe *)
  assert (REST : forall b lns, c :: l = b ++ l3 -> bytes_ok l3 -> explained b lns ->
    (forall k r c more, (forall k r c, told k r c more = map telling_of acc2) ->
       told k r c (lns ++ more) = map telling_of (acc1 ++ acc2)) ->
    forall M, Forall named M ->
    Forall named (M ++ mentioned_n f l3) /\
    (exists ls, frame_explained (c :: l) ls /\
       forall k r c, told k r c ls = map telling_of (acc1 ++ acc2)) \/
    ~ Forall named (M ++ mentioned_n f l3) /\
    (forall fuel, (List.length (c :: l) <= fuel)%nat ->
       exists o, decode_loop fuel (c :: l) = (o, Raise ValueError))).
  { intros b lns E B3 X T M FM. destruct (IH l3 acc2 B3 H4) as [(N & ls & F & T2)|(N & X2)].
    - left. split; [now apply Forall_app|]. exists (lns ++ ls). split.
      + rewrite E. now constructor.
      + intros. now apply T.
    - right. split; [intro F; apply N; now apply Forall_app in F|].
      intros fuel L. rewrite E in L |- *. destruct (subframe_runs _ _ X) as [NE R].
      destruct b as [|b0 b]; [contradiction|]. destruct fuel as [|fuel]; [cbn in L; lia|].
      rewrite <- app_comm_cons. cbn [decode_loop]. unfold dbind. rewrite app_comm_cons, R.
      rewrite app_length in L. destruct (X2 fuel ltac:(cbn in L; lia)) as [o ->].
      eexists. reflexivity. }
  assert (KC : k = KRead \/ k <> KRead) by (destruct k; (now left) || (right; discriminate)).
  clearbody k. destruct KC as [->|KN].
  - destruct (reads_told r _ _ _ _ _ H3) as [-> T].
    assert (BC : 16 * (c / 16) = 0x10).
    { destruct (Z.eqb_spec (16 * (c / 16)) 0); [discriminate|].
      destruct (Z.eqb_spec (16 * (c / 16)) 16); [assumption|discriminate]. }
    rewrite BC in HD. change (reg :: [] ++ mentioned_n f l2) with ([reg] ++ mentioned_n f l2).
    apply (REST bytes lines EB B2 (x_read r count reg bytes lines RI HD)); [|constructor; [exact N0|constructor]].
    intros k0 r0 c0 more HM. rewrite (header_told _ _ _ _ _ _ HD). cbv zeta. cbn [Z.eqb Pos.eqb].
    rewrite map_app, T, HM. reflexivity.
  - assert (BC : 16 * (c / 16) = 0x00 \/ 16 * (c / 16) = 0x20).
    { destruct (Z.eqb_spec (16 * (c / 16)) 0); [now left|right].
      destruct (Z.eqb_spec (16 * (c / 16)) 16); [congruence|]. Z.div_mod_to_equations. lia. }
    destruct (values_cases k r RI KN _ _ _ _ _ B2 H3) as (raws & E3 & L3 & B3 & [(N & vls & V & T)|(N & X)]).
    + replace (match k with KRead => [] | _ => map (fun i => reg + Z.of_nat i) (seq 0 (Z.to_nat count)) end)
        with (map (fun i => reg + Z.of_nat i) (seq 0 (Z.to_nat count))) by (destruct k; congruence).
      change (reg :: ?a ++ ?b) with ((reg :: a) ++ b).
      apply (REST (bytes ++ List.concat raws) (lines ++ vls)).
      * rewrite EB, E3, app_assoc. reflexivity.
      * exact B3.
      * apply (x_values (16 * (c / 16)) r reg); auto. rewrite L3, Z2Nat.id by lia. exact HD.
      * intros k0 r0 c0 more HM. rewrite <- app_assoc, (header_told _ _ _ _ _ _ HD). cbv zeta.
        rewrite <- KB, T, map_app, HM. destruct k; [reflexivity|congruence|reflexivity].
      * constructor; assumption.
    + right. split.
      { intro F. apply N. apply Forall_inv_tail in F. apply Forall_app in F.
        destruct F as [F _]. destruct k; [exact F|congruence|exact F]. }
      apply RAISES. rewrite (register_subframe c l C). fold r.
      destruct (header_runs _ _ _ _ _ _ HD) as (c1 & tail & -> & HR).
      injection EB as <- ->.
      assert (HR' : runs (read_header [c] (16 * (c / 16)) r (c mod 4)) tail lines (count, reg)).
      { destruct (Z.eqb_spec (c mod 4) 0) as [Z0|Z0].
        - rewrite Z0. destruct HR as [(E & P & _)|(_ & R)]; [|exact R]. exfalso.
          clear - E P Z0. clearbody r. Z.div_mod_to_equations. lia.
        - destruct HR as [(E & P & R)|(E & R)].
          + assert (count = c mod 4) as <- by congruence. exact R.
          + exfalso. clear - E Z0. clearbody r. Z.div_mod_to_equations. lia. }
      unfold dbind. rewrite HR'. rewrite K1.
      replace (match k with KRead => true | _ => false end) with false
        by (destruct k; [reflexivity|congruence|reflexivity]).
      rewrite E3. destruct (X l3) as [o ->]. eexists. reflexivity.
Qed.

(** For every frame that makes sense to the controller (bytes only): the
    decoder finishes exactly when every register it mentions has a name, and
    otherwise ends with ValueError.  When it finishes, the lines tell the
    register accesses that the controller sees, in order, with their values,
    and they are as documented. *)
Theorem C65_same_meaning : forall frame accesses, bytes_ok frame ->
  spec_decode frame = Some accesses ->
  (Forall named (mentioned frame) ->
   exists lines, decode_frame frame = (lines, None) /\ frame_explained frame lines /\
     told KWrite INT8 0 lines = map telling_of accesses) /\
  (~ Forall named (mentioned frame) ->
   exists lines, decode_frame frame = (lines, Some ValueError)).
Proof.
  intros l acc B H. unfold spec_decode in H. unfold mentioned.
  destruct (decode_cases _ _ _ B H) as [(N & ls & F & T)|(N & X)]; split; intro A; try contradiction.
  - exists ls. split; [now apply C65_explained|]. split; [exact F|apply T].
  - destruct (X _ (Nat.le_refl _)) as [o E]. exists o. unfold decode_frame. now rewrite E.
Qed.

(** The name the decoder prints for a register is the one the controller has for it. *)
Theorem C65_register_names : forall reg name, In (reg, name) register_names ->
  exists fw_name, In (reg, fw_name) fw_registers /\ same_register name fw_name.
Proof.
  intros reg name I.
  assert (A : Forall (fun p => existsb (fun q => (fst p =? fst q) &&
      (String.eqb (plain_name (snd p)) (plain_name (snd q)) ||
       existsb (fun r => String.eqb (snd p) (fst r) && String.eqb (snd q) (snd r)) renamed)) fw_registers = true) register_names).
  { apply Forall_forall. apply forallb_forall. vm_compute. reflexivity. }
  rewrite Forall_forall in A. specialize (A _ I). apply existsb_exists in A. destruct A as ([r n] & J & E). cbn [fst snd] in E.
  apply andb_prop in E. destruct E as (E1 & E2). apply Z.eqb_eq in E1. subst r. exists n. split; [exact J|].
  apply orb_prop in E2. destruct E2 as [E2|E2]; [left; now apply String.eqb_eq|right].
  apply existsb_exists in E2. destruct E2 as ([a b] & K & E). apply andb_prop in E. destruct E as (E3 & E4). cbn [fst snd] in *.
  apply String.eqb_eq in E3, E4. subst. exact K.
Qed.

(** No two registers have the same name. *)
Theorem C65_names : forall a b name, In (a, name) register_names -> In (b, name) register_names ->
  a = b.
Proof.
  intros a b name A B.
  assert (U : forall t, (fix u (t : list (Z * string)) : bool := match t with
      | [] => true
      | (_, s) :: t => negb (existsb (fun p => String.eqb s (snd p)) t) && u t end) t = true ->
    forall a b name, In (a, name) t -> In (b, name) t -> a = b).
  { clear. induction t as [|[k s] t IH]; intros H a b name A B; [contradiction|].
    apply andb_prop in H. destruct H as [H1 H2]. apply negb_true_iff in H1.
    assert (NO : forall x, In (x, s) t -> False).
    { intros x I. apply Bool.not_true_iff_false in H1. apply H1. apply existsb_exists.
      exists (x, s). split; [exact I|apply String.eqb_refl]. }
    destruct A as [A|A], B as [B|B].
    - congruence.
    - injection A as -> ->. exfalso. exact (NO b B).
    - injection B as -> ->. exfalso. exact (NO a A).
    - exact (IH H2 a b name A B). }
  apply (U register_names) with name; try assumption. vm_compute. reflexivity.
Qed.

(** A register without a name makes the decoder fail on a frame the
    controller understands: here a read of register 8 as float. *)
Theorem C65_every_register_refuted :
  spec_decode [0x1d; 0x08] = Some [ARead 8 F32] /\
  decode_frame [0x1d; 0x08] = ([([0x1d], SHead 0x10 F32 (Some 1))], Some ValueError).
Proof. split; vm_compute; reflexivity. Qed.

(** Of the two bounds of stay-within, only the lower one is shown in its
    unit: int16 100 at 0x040 and 0x041. *)
Theorem C65_every_unit_refuted :
  register_meaning 0x040 = Some (MUnit UPosition) /\
  register_meaning 0x041 = Some (MUnit UPosition) /\
  decode_frame [0x06; 0x40; 0x64; 0x00; 0x64; 0x00]
  = ([([0x06], SHead 0x00 INT16 (Some 2)); ([0x40], SStart 0x040 "COMMAND_WITHIN_LOWER_BOUND");
      ([0x64; 0x00], SValue 0x040 "COMMAND_WITHIN_LOWER_BOUND" (PInt 100)
         (NoteScaled (fmul (float_of_Z 100) (unit_float UPosition INT16))));
      ([0x64; 0x00], SValue 0x041 "COMMAND_WITHIN_UPPER_BOUND" (PInt 100) NoNote)]%string, None).
Proof. repeat split; vm_compute; reflexivity. Qed.

(** A position command with a query (mode, three int16 values), a NOP, and
    what is told of it; an error, and a stream. *)
Example C65_example :
  (let frame := [0x01; 0x00; 0x0a; 0x07; 0x20; 0x60; 0xff; 0x00; 0x00; 0x00; 0x80; 0x11; 0x00; 0x50] in
   bytes_ok frame /\ Forall named (mentioned frame) /\
   spec_decode frame = Some [AWrite 0 INT8 (PInt 10); AWrite 0x20 INT16 (PInt (-160));
     AWrite 0x21 INT16 (PInt 0); AWrite 0x22 INT16 (PInt (-32768)); ARead 0 INT8] /\
   fst (decode_frame frame)
   = [([0x01], SHead 0 INT8 (Some 1)); ([0x00], SStart 0 "MODE");
      ([0x0a], SValue 0 "MODE" (PInt 10) (NoteMode "POSITION"));
      ([0x07], SHead 0 INT16 (Some 3)); ([0x20], SStart 0x20 "COMMAND_POSITION");
      ([0x60; 0xff], SValue 0x20 "COMMAND_POSITION" (PInt (-160))
         (NoteScaled (fmul (float_of_Z (-160)) (unit_float UPosition INT16))));
      ([0x00; 0x00], SValue 0x21 "COMMAND_VELOCITY" (PInt 0)
         (NoteScaled (fmul (float_of_Z 0) (unit_float UVelocity INT16))));
      ([0x00; 0x80], SValue 0x22 "COMMAND_FEEDFORWARD_TORQUE" (PInt (-32768)) NoteNaN);
      ([0x11], SHead 0x10 INT8 (Some 1)); ([0x00], SStart 0 "MODE");
      ([0x50], SName 0x50)]%string) /\
  decode_frame [0x31; 0x08; 0x07]
  = ([([0x31], SName 0x31)], Some ValueError) /\
  decode_frame [0x41; 0x01; 0x02; 0x4f; 0x4b]
  = ([([0x41], SName 0x41); ([0x01], SChannel 1); ([0x02], SBytes 2); ([0x4f; 0x4b], SData)], None) /\
  decode_frame [0x24; 0x80] = ([([0x24], SHead 0x20 INT16 None)], Some IndexError).
Proof.
  split; [|repeat split; vm_compute; reflexivity]. cbv zeta.
  split; [repeat constructor; cbv; intuition discriminate|].
  split; [|split; vm_compute; reflexivity].
  match goal with |- Forall named ?l => let v := eval vm_compute in l in change l with v end.
  repeat constructor; eexists; apply enum_name_some; vm_compute; reflexivity.
Qed.

Print Assumptions C65_every_byte.
Print Assumptions C65_explained.
Print Assumptions C65_same_meaning.
Print Assumptions C65_register_names.
Print Assumptions C65_names.
Print Assumptions C65_every_register_refuted.
Print Assumptions C65_every_unit_refuted.
