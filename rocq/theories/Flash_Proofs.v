(** Proofs about the flashing commands. *)
From Coq Require Import Ascii String ZArith List Bool Lia ZifyBool ZifyNat.
From Verif Require Import PyBase PyBytes Async Async_Proofs Fdcanusb_Model Props_Fdcanusb
  Zbits Flash_Model.
Import ListNotations.
Open Scope Z_scope.
Ltac Zify.zify_post_hook ::= Z.div_mod_to_equations.

(** ** Specification *)

Definition len {A} (l : list A) : Z := Z.of_nat (List.length l).

(** The bytes of data placed at an address, and those of an image. *)
Fixpoint placed (a : Z) (d : list Z) : list (Z * Z) :=
  match d with [] => [] | v :: d => (a, v) :: placed (a + 1) d end.
Definition image_bytes (l : list block) : list (Z * Z) :=
  List.concat (map (fun s => placed (fst s) (snd s)) l).

(** Sections in order, not overlapping, none empty, from [lo] on. *)
Fixpoint image_ok (lo : Z) (l : list block) : Prop :=
  match l with
  | [] => True
  | (a, d) :: l => lo <= a /\ d <> [] /\ bytes_ok d /\ image_ok (a + len d) l
  end.

(** The blocks of a complete iteration: get_next_block, then advance_block, until
    the latter says that it is done. *)
Inductive iterates (elf : list block) : Z -> list block -> Prop :=
| it_last cur cur' : advance_block elf cur = (cur', true) ->
    iterates elf cur [get_next_block elf cur]
| it_more cur cur' bs : advance_block elf cur = (cur', false) -> iterates elf cur' bs ->
    iterates elf cur (get_next_block elf cur :: bs).

Definition good_block (b : block) : Prop := 0 < len (snd b) <= 32 /\ bytes_ok (snd b).

(** ** Iteration *)

Lemma placed_app a d d' : placed a (d ++ d') = placed a d ++ placed (a + len d) d'.
Proof.
  revert a. induction d as [|v d IH]; intros a; unfold len; cbn.
  - f_equal. lia.
  - f_equal. rewrite IH. do 2 f_equal. unfold len. lia.
Qed.

Lemma len_app {A} (l l' : list A) : len (l ++ l') = len l + len l'.
Proof. unfold len. rewrite app_length. lia. Qed.

Lemma len_0 {A} (l : list A) : l <> [] -> 0 < len l.
Proof. destruct l; [congruence|]. unfold len. cbn. lia. Qed.

Lemma next_skip dn r cur :
  Forall (fun s => snd s <> [] /\ fst s + len (snd s) <= cur) dn ->
  get_next_block (dn ++ r) cur = get_next_block r cur.
Proof.
  induction 1 as [|[a d] dn [N H] F IH]; [reflexivity|]. cbn in *. apply len_0 in N.
  unfold len in *. replace (a >? cur) with false by lia.
  replace (_ >? cur) with false by lia. exact IH.
Qed.

Lemma next_before a d r cur : cur < a ->
  get_next_block ((a, d) :: r) cur = (a, firstn 32 d).
Proof. intros H. cbn [get_next_block]. now replace (a >? cur) with true by lia. Qed.

Lemma next_inside a d1 d2 r : d2 <> [] ->
  get_next_block ((a, d1 ++ d2) :: r) (a + len d1) = (a + len d1, firstn 32 d2).
Proof.
  intros N. apply len_0 in N. cbn [get_next_block]. unfold len in *. rewrite app_length.
  replace (a >? _) with false by lia. replace (_ >? _) with true by lia.
  f_equal. unfold slice, MAX_FLASH_BLOCK_SIZE.
  replace (Z.to_nat (a + Z.of_nat (List.length d1) - a)) with (List.length d1) by lia.
  rewrite skipn_app, skipn_all, Nat.sub_diag. cbn [app skipn].
  destruct (Z.le_gt_cases (Z.of_nat (List.length d2)) 32).
  - rewrite !firstn_all2 by lia. reflexivity.
  - f_equal. lia.
Qed.

Lemma iterate_from n : forall elf dn a d1 d2 rest cur,
  (List.length d2 + List.length (List.concat (map snd rest)) <= n)%nat ->
  elf = dn ++ (a, d1 ++ d2) :: rest ->
  0 <= a -> d2 <> [] -> bytes_ok d2 -> image_ok (a + len (d1 ++ d2)) rest ->
  Forall (fun s => snd s <> [] /\ fst s + len (snd s) <= cur) dn ->
  (d1 = [] /\ cur < a \/ cur = a + len d1) ->
  exists bs, iterates elf cur bs /\ Forall good_block bs /\
    image_bytes bs = placed (a + len d1) d2 ++ image_bytes rest.
Proof.
  induction n as [|n IH]; intros elf dn a d1 d2 rest cur L E A N By Ok Dn C.
  { destruct d2; [congruence|cbn in L; lia]. }
  assert (G : get_next_block elf cur = (a + len d1, firstn 32 d2)).
  { subst elf. rewrite next_skip by exact Dn. destruct C as [[-> C]| ->].
    - cbn [app]. rewrite next_before by exact C. f_equal. unfold len. cbn. lia.
    - now apply next_inside. }
  assert (GB : good_block (get_next_block elf cur)).
  { rewrite G. split; cbn [snd].
    - pose proof (len_0 _ N). unfold len in *. rewrite firstn_length. lia.
    - apply Forall_forall. intros x Hx. unfold bytes_ok in By. rewrite Forall_forall in By.
      apply By. rewrite <- (firstn_skipn 32 d2). apply in_or_app. now left. }
  pose proof (firstn_skipn 32 d2) as FS.
  set (f := firstn 32 d2) in *. set (k := skipn 32 d2) in *. clearbody f k.
  assert (Nf : f <> []). { destruct GB as [GB _]. rewrite G in GB. cbn [snd] in GB.
    intros Ef. rewrite Ef in GB. unfold len in GB. cbn in GB. lia. }
  set (cur' := a + len d1 + len f).
  assert (Adv : advance_block elf cur = (cur', fst (get_next_block elf cur') <? 0)).
  { unfold advance_block. rewrite G. reflexivity. }
  assert (Dn' : Forall (fun s => snd s <> [] /\ fst s + len (snd s) <= cur') dn).
  { eapply Forall_impl; [|exact Dn]. cbn. intros s [Hs1 Hs2]. split; auto.
    pose proof (len_0 _ Nf). unfold cur'.
    assert (0 <= len d1) by (unfold len; lia). destruct C as [[_ C]|C]; lia. }
  destruct (list_eq_dec Z.eq_dec k []) as [Ek|Nk].
  - (* this section is finished *)
    assert (F2 : f = d2) by (rewrite <- FS, Ek; now rewrite app_nil_r).
    assert (Dn2 : Forall (fun s => snd s <> [] /\ fst s + len (snd s) <= cur')
                    (dn ++ [(a, d1 ++ d2)])).
    { apply Forall_app. split; auto. constructor; auto. cbn [fst snd]. split.
      - intros Z. apply app_eq_nil in Z. tauto.
      - unfold cur'. rewrite len_app, F2. lia. }
    assert (E2 : elf = (dn ++ [(a, d1 ++ d2)]) ++ rest) by (rewrite <- app_assoc; exact E).
    destruct rest as [|[a' d'] rest'].
    + exists [get_next_block elf cur]. split; [|split].
      * apply it_last with (cur' := cur'). rewrite Adv. f_equal.
        rewrite E2, next_skip by exact Dn2. reflexivity.
      * constructor; auto.
      * rewrite G, F2. unfold image_bytes. cbn. now rewrite !app_nil_r.
    + cbn [image_ok] in Ok. destruct Ok as (O1 & O2 & O3 & O4).
      assert (P0 : 0 <= a').
      { unfold len in O1. lia. }
      assert (Cl : cur' <= a') by (unfold cur'; rewrite len_app, <- F2 in O1; lia).
      destruct (IH elf (dn ++ [(a, d1 ++ d2)]) a' [] d' rest' cur') as (bs & I & Gd & Im); auto.
      * cbn [map snd concat] in L. rewrite app_length in L. destruct d2; [congruence|].
        cbn in L. lia.
      * unfold len at 1. cbn. destruct (Z.eq_dec cur' a'); [right; lia|left; split; auto; lia].
      * exists (get_next_block elf cur :: bs). split; [|split].
        -- apply it_more with (cur' := cur'); auto. rewrite Adv. f_equal.
           rewrite E2, next_skip by exact Dn2.
           destruct (Z.eq_dec cur' a') as [->|].
           ++ pose proof (next_inside a' [] d' rest' O2) as Hn. unfold len in Hn. cbn in Hn.
              rewrite Z.add_0_r in Hn. cbn [app] in Hn. cbn. rewrite Hn. cbn. lia.
           ++ rewrite next_before by lia. cbn. lia.
        -- constructor; auto.
        -- unfold image_bytes in *. cbn [map concat]. rewrite Im, G, F2. cbn [fst snd].
           unfold len at 2. cbn. now rewrite Z.add_0_r.
  - (* more of this section *)
    destruct (IH elf dn a (d1 ++ f) k rest cur') as (bs & I & Gd & Im); auto.
    + assert (List.length d2 = List.length f + List.length k)%nat
        by (rewrite <- FS, app_length; auto).
      destruct f; [congruence|]. cbn in *. lia.
    + rewrite <- app_assoc, FS. exact E.
    + unfold bytes_ok in *. rewrite <- FS in By. now apply Forall_app in By.
    + rewrite <- app_assoc, FS. exact Ok.
    + right. rewrite len_app. unfold cur'. lia.
    + exists (get_next_block elf cur :: bs). split; [|split].
      * apply it_more with (cur' := cur'); auto. rewrite Adv. f_equal.
        rewrite E, next_skip by exact Dn'. rewrite <- FS, app_assoc.
        replace cur' with (a + len (d1 ++ f)) by (rewrite len_app; unfold cur'; lia).
        rewrite next_inside by exact Nk. cbn. unfold len. lia.
      * constructor; auto.
      * unfold image_bytes in *. cbn [map concat]. rewrite Im, G. cbn [fst snd].
        rewrite <- FS, placed_app, len_app. rewrite <- !app_assoc. do 3 f_equal. lia.
Qed.

Lemma iterate_all elf : image_ok 0 elf -> elf <> [] ->
  exists bs, iterates elf (-1) bs /\ Forall good_block bs /\ image_bytes bs = image_bytes elf.
Proof.
  destruct elf as [|[a d] rest]; [congruence|]. cbn [image_ok]. intros (O1 & O2 & O3 & O4) _.
  destruct (iterate_from _ ((a, d) :: rest) [] a [] d rest (-1) (le_n _)) as (bs & I & G & E);
    auto.
  - left. split; auto. lia.
  - exists bs. split; auto. split; auto. rewrite E. unfold image_bytes, len. cbn.
    now rewrite Z.add_0_r.
Qed.

Lemma iterates_det elf cur bs : iterates elf cur bs -> forall bs', iterates elf cur bs' -> bs = bs'.
Proof.
  induction 1 as [cur c H|cur c bs H I IH]; intros bs' I'; destruct I' as [k c' H'|k c' l H' I'];
    rewrite H in H'; try congruence.
  injection H' as <-. f_equal. now apply IH.
Qed.

(** The end of an image. *)
Definition block_end (b : block) : Z := fst b + len (snd b).
Definition image_end (l : list block) : Z := block_end (last l (0, [])).

Lemma placed_last a d x : d <> [] -> fst (last (placed a d) x) = a + len d - 1.
Proof.
  revert a x. induction d as [|v d IH]; intros a x N; [congruence|].
  destruct d as [|w d].
  - unfold len. cbn. lia.
  - change (last (placed a (v :: w :: d)) x) with (last (placed (a + 1) (w :: d)) x).
    rewrite IH by congruence. unfold len. cbn [List.length]. lia.
Qed.

Lemma last_app_r {A} (l l' : list A) x : l' <> [] -> last (l ++ l') x = last l' x.
Proof.
  intros N. induction l as [|y l IH]; [reflexivity|]. cbn [app]. rewrite <- IH.
  destruct (l ++ l') eqn:E; [|reflexivity]. apply app_eq_nil in E. tauto.
Qed.

Lemma image_last l x : Forall (fun b => snd b <> []) l -> l <> [] ->
  fst (last (image_bytes l) x) = image_end l - 1.
Proof.
  induction 1 as [|[a d] l H F IH]; intros N; [congruence|]. clear N. cbn in H.
  unfold image_bytes, image_end in *. cbn [map concat]. destruct l as [|b l].
  - cbn [map concat last]. rewrite app_nil_r. cbn [fst snd]. rewrite placed_last by exact H.
    reflexivity.
  - rewrite last_app_r.
    + rewrite IH by congruence. reflexivity.
    + inversion F as [|? ? Hb Fb]; subst. destruct b as [b0 [|v e]]; cbn in *; congruence.
Qed.

Lemma image_ok_ne lo l : image_ok lo l -> Forall (fun b => snd b <> []) l.
Proof.
  revert lo. induction l as [|[a d] l IH]; intros lo H; constructor; cbn in *; [tauto|].
  eapply IH. apply H.
Qed.

Lemma good_ne bs : Forall good_block bs -> Forall (fun b => snd b <> []) bs.
Proof.
  apply Forall_impl. intros [a d] [H _] E. cbn in *. subst d. unfold len in H. cbn in H. lia.
Qed.

Lemma same_end bs elf lo : image_ok lo elf -> elf <> [] -> Forall good_block bs -> bs <> [] ->
  image_bytes bs = image_bytes elf -> image_end bs = image_end elf.
Proof.
  intros O N G Nb E. pose proof (image_last bs (0, 0) (good_ne _ G) Nb).
  pose proof (image_last elf (0, 0) (image_ok_ne _ _ O) N). rewrite E in H. lia.
Qed.

Lemma iterates_ne elf cur bs : iterates elf cur bs -> bs <> [].
Proof. destruct 1; congruence. Qed.

(** ** Inversion of runs *)
Section Inv.
Context {St Req Rep : Type}.
Notation prog := (prog St Req Rep).

Lemma run_bind_inv A B n : forall (p : prog A) (f : A -> prog B) s rs b s2 rs2 qs,
  run n (pbind p f) s rs = Some (Returned b s2 rs2, qs) ->
  exists a s1 rs1 qs1 qs2, runs p s rs (Returned a s1 rs1) qs1 /\
    runs (f a) s1 rs1 (Returned b s2 rs2) qs2 /\ qs = qs1 ++ qs2.
Proof.
  induction n as [|n IH]; intros p f s rs b s2 rs2 qs H; [discriminate|].
  destruct p as [a|e|k|s0 k|k|k|q k|X B' body x k].
  - exists a, s, rs, [], qs. split; [exists 1%nat; reflexivity|]. split; auto. now exists (S n).
  - discriminate.
  - cbn in H. apply IH in H as (a & s1 & rs1 & q1 & q2 & H1 & H2 & ->).
    exists a, s1, rs1, q1, q2. split; auto. now apply runs_get.
  - cbn in H. apply IH in H as (a & s1 & rs1 & q1 & q2 & H1 & H2 & ->).
    exists a, s1, rs1, q1, q2. split; auto. now apply runs_put.
  - cbn in H. apply IH in H as (a & s1 & rs1 & q1 & q2 & H1 & H2 & ->).
    exists a, s1, rs1, q1, q2. split; auto. now apply runs_acquire.
  - cbn in H. apply IH in H as (a & s1 & rs1 & q1 & q2 & H1 & H2 & ->).
    exists a, s1, rs1, q1, q2. split; auto. now apply runs_release.
  - cbn in H. destruct rs as [|r rs]; [discriminate|].
    destruct (run n (pbind (k r) f) s rs) as [[o qs']|] eqn:E; [|discriminate].
    injection H as -> <-. apply IH in E as (a & s1 & rs1 & q1 & q2 & H1 & H2 & ->).
    exists a, s1, rs1, (q :: q1), q2. split; auto. now apply runs_await.
  - cbn in H. rewrite <- (run_peq _ n _ _ _ _ (unroll_bind _ _ _ _ body x k f)) in H.
    apply IH in H as (a & s1 & rs1 & q1 & q2 & H1 & H2 & ->).
    exists a, s1, rs1, q1, q2. split; auto. now apply runs_loop.
Qed.

Lemma runs_bind_inv A B (p : prog A) (f : A -> prog B) s rs b s2 rs2 qs :
  runs (pbind p f) s rs (Returned b s2 rs2) qs ->
  exists a s1 rs1 qs1 qs2, runs p s rs (Returned a s1 rs1) qs1 /\
    runs (f a) s1 rs1 (Returned b s2 rs2) qs2 /\ qs = qs1 ++ qs2.
Proof. intros [n H]. eapply run_bind_inv, H. Qed.

Lemma runs_ret_inv A (a : A) s rs b s2 rs2 qs :
  runs (Ret a : prog A) s rs (Returned b s2 rs2) qs -> a = b /\ s = s2 /\ rs = rs2 /\ qs = [].
Proof. intros [[|n] H]; cbn in H; [discriminate|]. injection H as <- <- <- <-. auto. Qed.

Lemma runs_lift_inv A (r : res A) s rs b s2 rs2 qs :
  runs (lift r : prog A) s rs (Returned b s2 rs2) qs -> r = Ok b /\ s = s2 /\ rs = rs2 /\ qs = [].
Proof.
  destruct r as [a|e]; intros [[|n] H]; cbn in H; try discriminate.
  injection H as <- <- <- <-. auto.
Qed.

Lemma runs_await_inv q s rs b s2 rs2 qs :
  runs (await q : prog Rep) s rs (Returned b s2 rs2) qs ->
  s = s2 /\ rs = Ok b :: rs2 /\ qs = [q].
Proof.
  intros [[|n] H]; cbn in H; [discriminate|]. destruct rs as [|r rs]; [discriminate|].
  destruct (run n (lift r) s rs) as [[o l]|] eqn:E; [|discriminate]. injection H as -> <-.
  destruct (runs_lift_inv _ r s rs b s2 rs2 l) as (-> & -> & -> & ->); [now exists n|]. auto.
Qed.

Lemma runs_loop_inv A X B (body : X -> prog (X + B)) x (k : B -> prog A) s rs o qs :
  runs (Loop body x k) s rs o qs -> runs (unroll body x k) s rs o qs.
Proof. intros [[|n] H]; [discriminate|]. now exists n. Qed.
End Inv.

(** ** The commands of write_flash *)
Definition w_req (b : block) : creq := (w_cmd b, false).
Definition r_req (b : block) : creq := (r_cmd b, true).
Definition pad_block (e : Z) : block := (e, repeat 0xff (Z.to_nat (8 - e mod 8))).

Lemma ff_hex n : List.concat (repeat (lit "ff") n) = bytes_hex (repeat 0xff n).
Proof. unfold bytes_hex. induction n as [|n IH]; [reflexivity|]. cbn [repeat map concat]. now rewrite IH. Qed.

Lemma land7 e : Z.land e 7 = e mod 8.
Proof. change 7 with (Z.ones 3). rewrite Z.land_ones by lia. reflexivity. Qed.

Definition w_body elfs := (fun cur : Z =>
    let next_block := get_next_block elfs cur in
    do _ <- await (w_cmd next_block, false);
    let '(cur, done) := advance_block elfs cur in
    if done then Ret (inr next_block) else Ret (inl cur)) : Z -> FP (Z + block).
Definition r_body elfs := (fun cur : Z =>
    let expected_block := get_next_block elfs cur in
    do result <- await (r_cmd expected_block, true);
    do _ <- lift (verify_blocks expected_block result);
    let '(cur, done) := advance_block elfs cur in
    if done then Ret (inr tt) else Ret (inl cur)) : Z -> FP (Z + unit).


Lemma w_loop_runs elfs cur bs : iterates elfs cur bs -> forall s rs,
  List.length rs = List.length bs ->
  forall rest, runs (Loop (w_body elfs) cur Ret) s (map Ok rs ++ rest)
    (Returned (last bs (0, [])) s rest) (map w_req bs).
Proof.
  induction 1 as [cur c H|cur c bs H I IH]; intros s rs L rest; apply runs_loop;
    unfold unroll, w_body; cbn [pbind]; destruct rs as [|r rs]; try discriminate; cbn [map app].
  - destruct rs; [|discriminate]. apply runs_await. cbn [lift pbind]. rewrite H. apply runs_ret.
  - change (last (get_next_block elfs cur :: bs) (0, [])) with
      (match bs with [] => get_next_block elfs cur | _ => last bs (0, []) end).
    apply runs_await. cbn [lift pbind]. rewrite H. cbn [pbind].
    destruct bs as [|b bs]; [now apply iterates_ne in I|].
    apply IH. cbn in *. lia.
Qed.

Lemma w_loop_inv elfs cur bs : iterates elfs cur bs -> forall s rs b s' rest qs,
  runs (Loop (w_body elfs) cur Ret) s rs (Returned b s' rest) qs ->
  exists rs', rs = map Ok rs' ++ rest /\ List.length rs' = List.length bs /\
    qs = map w_req bs /\ b = last bs (0, []).
Proof.
  induction 1 as [cur c H|cur c bs H I IH]; intros s rs b s' rest qs R;
    apply runs_loop_inv in R; unfold unroll in R; apply runs_bind_inv in R;
    destruct R as (x & s1 & rs1 & q1 & q2 & R1 & R2 & ->);
    unfold w_body in R1; cbv zeta in R1; apply runs_bind_inv in R1;
    destruct R1 as (y & s2 & rs2 & q3 & q4 & R1 & R3 & ->);
    apply runs_await_inv in R1 as (-> & -> & ->); rewrite H in R3;
    apply runs_ret_inv in R3 as (<- & -> & -> & ->).
  - apply runs_ret_inv in R2 as (<- & -> & -> & ->). exists [y]. auto.
  - destruct (IH _ _ _ _ _ _ R2) as (rs' & -> & L & -> & ->). exists (y :: rs').
    split; auto. split; [cbn; lia|]. split; [reflexivity|].
    destruct bs as [|b bs]; [now apply iterates_ne in I|]. reflexivity.
Qed.

Lemma r_loop_runs elfs cur bs : iterates elfs cur bs -> forall s rs,
  Forall2 (fun b r => verify_blocks b r = Ok tt) bs rs ->
  forall rest, runs (Loop (r_body elfs) cur Ret) s (map Ok rs ++ rest)
    (Returned tt s rest) (map r_req bs).
Proof.
  induction 1 as [cur c H|cur c bs H I IH]; intros s rs L rest; apply runs_loop;
    unfold unroll, r_body; cbn [pbind]; inversion L as [|? r ? rs' V L']; subst; cbn [map app].
  - inversion L'; subst. apply runs_await. cbn [lift pbind]. rewrite V, H. apply runs_ret.
  - apply runs_await. cbn [lift pbind]. rewrite V, H. cbn [lift pbind]. now apply IH.
Qed.

Lemma r_loop_inv elfs cur bs : iterates elfs cur bs -> forall s rs s' rest qs,
  runs (Loop (r_body elfs) cur Ret) s rs (Returned tt s' rest) qs ->
  exists rs', rs = map Ok rs' ++ rest /\ qs = map r_req bs /\
    Forall2 (fun b r => verify_blocks b r = Ok tt) bs rs'.
Proof.
  induction 1 as [cur c H|cur c bs H I IH]; intros s rs s' rest qs R;
    apply runs_loop_inv in R; unfold unroll in R; apply runs_bind_inv in R;
    destruct R as (x & s1 & rs1 & q1 & q2 & R1 & R2 & ->);
    unfold r_body in R1; cbv zeta in R1; apply runs_bind_inv in R1;
    destruct R1 as (y & s2 & rs2 & q3 & q4 & R1 & R3 & ->);
    apply runs_await_inv in R1 as (-> & -> & ->); apply runs_bind_inv in R3;
    destruct R3 as (z & s3 & rs3 & q5 & q6 & R3 & R4 & ->);
    apply runs_lift_inv in R3 as (V & -> & -> & ->); destruct z; rewrite H in R4;
    apply runs_ret_inv in R4 as (<- & -> & -> & ->).
  - apply runs_ret_inv in R2 as (_ & -> & -> & ->). exists [y]. auto.
  - destruct (IH _ _ _ _ _ R2) as (rs' & -> & -> & F). exists (y :: rs'). auto.
Qed.

Definition pad_req (e : Z) : creq :=
  (lit "w " ++ hexa e ++ [32] ++ List.concat (repeat (lit "ff") (Z.to_nat (8 - Z.land e 0x07))), false).

Lemma pad_req_eq e : pad_req e = w_req (pad_block e).
Proof. unfold pad_req, w_req, w_cmd, pad_block. cbn [fst snd]. now rewrite land7, ff_hex. Qed.

Lemma pad_if e : negb (8 - Z.land e 0x07 =? 0) = true.
Proof. rewrite land7. lia. Qed.

Lemma write_flash_runs elfs bs s ws p rs rest : iterates elfs (-1) bs ->
  List.length ws = List.length bs -> Forall2 (fun b r => verify_blocks b r = Ok tt) bs rs ->
  runs (write_flash elfs) s (map Ok ws ++ Ok p :: map Ok rs ++ rest) (Returned tt s rest)
    (map w_req bs ++ w_req (pad_block (image_end bs)) :: map r_req bs).
Proof.
  intros I L F. unfold write_flash.
  eapply runs_bind; [exact (w_loop_runs elfs _ bs I s ws L _)|].
  cbv zeta. rewrite pad_if. cbn [pbind]. change (fst (last bs (0, [])) + Z.of_nat _) with (image_end bs).
  fold (pad_req (image_end bs)). rewrite pad_req_eq. apply runs_await. cbn [lift pbind].
  exact (r_loop_runs elfs _ bs I s rs F rest).
Qed.

Lemma write_flash_inv elfs bs s rs s' rest qs : iterates elfs (-1) bs ->
  runs (write_flash elfs) s rs (Returned tt s' rest) qs ->
  exists ws p rds, rs = map Ok ws ++ Ok p :: map Ok rds ++ rest /\
    List.length ws = List.length bs /\
    qs = map w_req bs ++ w_req (pad_block (image_end bs)) :: map r_req bs /\
    Forall2 (fun b r => verify_blocks b r = Ok tt) bs rds.
Proof.
  intros I R. unfold write_flash in R. apply runs_bind_inv in R.
  destruct R as (b & s1 & rs1 & q1 & q2 & R1 & R2 & ->).
  apply (w_loop_inv elfs _ bs I) in R1 as (ws & -> & L & -> & ->).
  cbv zeta in R2. rewrite pad_if in R2. apply runs_bind_inv in R2.
  destruct R2 as (p & s2 & rs2 & q3 & q4 & R2 & R3 & ->).
  apply runs_await_inv in R2 as (-> & -> & ->).
  apply (r_loop_inv elfs _ bs I) in R3 as (rds & -> & -> & F).
  exists ws, p, rds. split; auto. split; auto. split; auto. f_equal.
  change (fst (last bs (0, [])) + Z.of_nat _) with (image_end bs).
  fold (pad_req (image_end bs)). now rewrite pad_req_eq.
Qed.

(** ** Text *)
Lemma bytes_eqb_eq a b : bytes_eqb a b = true <-> a = b.
Proof.
  revert b. induction a as [|x a IH]; intros [|y b]; cbn; try (split; [discriminate|congruence]).
  - tauto.
  - rewrite andb_true_iff, IH, Z.eqb_eq. split; [intros [-> ->]; auto|]. intros E. now injection E.
Qed.

Lemma bytes_hex_bytes d : bytes_ok d -> hex_bytes (bytes_hex d) d.
Proof.
  unfold bytes_hex. induction 1 as [|b l H L IH]; [constructor|].
  cbn [map concat hex_digits app]. unfold byte_ok in H.
  replace b with (16 * ((b / 16) mod 16) + b mod 16) at 3 by lia.
  constructor; auto; apply hex_char_digit; lia.
Qed.

Lemma hex_bytes_fun w d d' : hex_bytes w d -> hex_bytes w d' -> d = d'.
Proof.
  intros H. revert d'. induction H as [|a b x y w d Ha Hb H IH]; intros d' H'; inversion H'; subst; auto.
  f_equal; auto. unfold hex_digit_of in *. lia.
Qed.

Definition low (c : Z) : Z :=
  if ((65 <=? c) && (c <=? 90)) || ((0xc0 <=? c) && (c <=? 0xde) && negb (c =? 0xd7))
  then c + 32 else c.
Lemma hex_digit_low c v : hex_digit_of (low c) v -> hex_digit_of c v.
Proof.
  unfold low, hex_digit_of. intros H.
  destruct (_ || _) eqn:E in H; lia.
Qed.

Lemma hex_bytes_low w d : hex_bytes (map low w) d -> hex_bytes w d.
Proof.
  remember (map low w) as l eqn:E. intros H. revert w E.
  induction H as [|a b x y l d Ha Hb H IH]; intros w E.
  - destruct w; [constructor|discriminate].
  - destruct w as [|c [|c' w]]; try discriminate. injection E as -> -> E.
    constructor; auto using hex_digit_low.
Qed.
