(** C69: the trees of tview show what the controller sent, and an edit changes the parameter it
    was made to, to the value that was chosen. *)
From Coq Require Import Ascii String ZArith List Bool Lia ZifyBool ZifyNat.
From Coq Require FinFun.
From Verif Require Import PyBase PyBytes PyFloat Reader_Model Reader_Spec Props_Reader Tree_Model Tree_Spec.
Import ListNotations.
Open Scope Z_scope.

(** *** Numerals *)

Lemma positional_app base s c : positional base (s ++ [c]) = base * positional base s + digit_value c.
Proof. unfold positional. rewrite fold_left_app. reflexivity. Qed.

Lemma digit_ok d base : 0 <= d < base -> base <= 16 ->
  ((48 <= digit d <= 57 \/ 97 <= digit d <= 102) /\ digit_value (digit d) < base) /\ digit_value (digit d) = d /\ (digit d = 48 -> d = 0).
Proof. intros H B. unfold digit_value, digit. destruct (d <? 10) eqn:E; destruct (_ <? 97) eqn:F; lia. Qed.

Lemma hd_app A (d : A) s t : s <> [] -> hd d (s ++ t) = hd d s.
Proof. destruct s; [congruence|reflexivity]. Qed.

Lemma digits_natural base : 2 <= base <= 16 -> forall fuel n, 0 <= n < 2 ^ Z.of_nat fuel -> (0 < fuel)%nat ->
  natural base n (digits_of base fuel n) /\ (0 < n -> hd 0 (digits_of base fuel n) <> 48).
Proof.
  intros B. induction fuel as [|fuel IH]; intros n N F; [lia|]. cbn [digits_of]. destruct (n <? base) eqn:E.
  - destruct (digit_ok n base ltac:(lia) ltac:(lia)) as (A & C & D). split.
    + split; [discriminate|]. split; [constructor; [exact A|constructor]|]. split; [cbn; intros ->; reflexivity|]. cbn. lia.
    + cbn. intros P X. specialize (D X). lia.
  - assert (P : 0 < n / base) by (apply Z.div_str_pos; lia).
    assert (Q : n / base < 2 ^ Z.of_nat fuel).
    { apply Z.div_lt_upper_bound; [lia|]. rewrite Nat2Z.inj_succ, Z.pow_succ_r in N by lia. nia. }
    assert (G : (0 < fuel)%nat) by (destruct fuel; [cbn in Q; lia|lia]).
    destruct (IH (n / base) ltac:(lia) G) as ((A1 & A2 & A3 & A4) & A5). specialize (A5 P).
    destruct (digit_ok (n mod base) base ltac:(apply Z.mod_pos_bound; lia) ltac:(lia)) as (D1 & D2 & D3).
    split; [|intros _; rewrite hd_app by exact A1; exact A5].
    split; [intro X; apply app_eq_nil in X; tauto|]. split; [apply Forall_app; split; [exact A2|constructor; [exact D1|constructor]]|].
    split; [rewrite hd_app by exact A1; tauto|]. rewrite positional_app, A4, D2. pose proof (Z.div_mod n base ltac:(lia)). lia.
Qed.

Lemma digits_enough n : 0 <= n -> 0 <= n < 2 ^ Z.of_nat (S (Z.to_nat (Z.log2 n))).
Proof.
  intros N. split; [exact N|]. pose proof (Z.log2_nonneg n). rewrite Nat2Z.inj_succ, Z2Nat.id by assumption.
  destruct (Z.eq_dec n 0) as [->|]; [cbn; lia|]. apply Z.log2_spec. lia.
Qed.

(** How numbers are written. *)
Theorem C69_numerals : forall z, written 10 z (str_of_Z z) /\ written 16 z (hex_of_Z z).
Proof.
  assert (G : forall base z, 2 <= base <= 16 -> written base z (numeral base z)).
  { intros base z B. unfold written, numeral. destruct (z <? 0) eqn:E.
    - eexists. split; [reflexivity|]. apply digits_natural; [exact B|apply digits_enough; lia|lia].
    - apply digits_natural; [exact B|apply digits_enough; lia|lia]. }
  intro z. split; apply G; lia.
Qed.

Lemma natural_nonneg base n s : 2 <= base -> natural base n s -> 0 <= n /\ (hd 0 s <> 48 -> 0 < n).
Proof.
  intros B (A1 & A2 & A3 & <-). clear A3.
  assert (G : forall s n, 0 <= n -> Forall (fun c => (48 <= c <= 57 \/ 97 <= c <= 102) /\ digit_value c < base) s ->
     n <= fold_left (fun n c => base * n + digit_value c) s n).
  { clear - B. induction s as [|c s IH]; intros n N F; [cbn; lia|]. inversion F; subst. cbn [fold_left].
    assert (D : 0 <= digit_value c) by (unfold digit_value; destruct (c <? 97) eqn:E; lia).
    specialize (IH (base * n + digit_value c) ltac:(nia) H2). nia. }
  split; [apply (G s 0); [lia|exact A2]|]. intro H. destruct s as [|c s]; [congruence|]. cbn [hd] in H. inversion A2; subst.
  unfold positional. cbn [fold_left]. assert (D : 0 < digit_value c) by (unfold digit_value; destruct (c <? 97) eqn:E; lia).
  specialize (G s (base * 0 + digit_value c) ltac:(lia) H3). lia.
Qed.

Lemma natural_unique base n : 2 <= base -> forall s t, natural base n s -> natural base n t -> s = t.
Proof.
  intros B s t. revert n t. induction s as [|c s IH] using rev_ind; intros n t S T; [destruct S; congruence|].
  destruct t as [|d t _] using rev_ind; [destruct T; congruence|].
  destruct S as (S1 & S2 & S3 & S4), T as (T1 & T2 & T3 & T4). apply Forall_app in S2 as (S2 & S5), T2 as (T2 & T5).
  inversion S5 as [|? ? (S6 & S7) _]; subst x l. inversion T5 as [|? ? (T6 & T7) _]; subst x l.
  rewrite positional_app in S4, T4.
  assert (CS : 0 <= digit_value c) by (unfold digit_value; destruct (c <? 97) eqn:E; lia).
  assert (DS : 0 <= digit_value d) by (unfold digit_value; destruct (d <? 97) eqn:E; lia).
  assert (CD : digit_value c = digit_value d /\ positional base s = positional base t).
  { assert (X : base * positional base s + digit_value c = base * positional base t + digit_value d) by lia.
    apply Z.div_mod_unique in X; [lia|left; lia|left; lia]. }
  destruct CD as (CD & PP). assert (c = d) as <- by (unfold digit_value in CD; destruct (c <? 97) eqn:?, (d <? 97) eqn:?; lia).
  f_equal. assert (HD : forall r, r <> [] -> (hd 0 (r ++ [c]) = 48 -> r ++ [c] = [48]) -> hd 0 r <> 48).
  { intros r R H X. rewrite hd_app in H by exact R. specialize (H X). destruct r as [|x [|y r]]; [congruence| |]; cbn in H; discriminate H. }
  assert (NAT : forall r, r <> [] -> Forall (fun c => (48 <= c <= 57 \/ 97 <= c <= 102) /\ digit_value c < base) r ->
     hd 0 r <> 48 -> natural base (positional base r) r).
  { intros r R1 R2 R3. split; [exact R1|]. split; [exact R2|]. split; [intro; contradiction|reflexivity]. }
  assert (NN : forall (x : Z) l, x :: l <> []) by discriminate.
  assert (Z0 : forall x l, Forall (fun c => (48 <= c <= 57 \/ 97 <= c <= 102) /\ digit_value c < base) (x :: l) ->
     (hd 0 ((x :: l) ++ [c]) = 48 -> (x :: l) ++ [c] = [48]) -> 0 < positional base (x :: l)).
  { intros x l F H. pose proof (HD (x :: l) (NN x l) H) as Y. apply (natural_nonneg base _ _ B (NAT _ (NN x l) F Y)). exact Y. }
  destruct s as [|x s], t as [|y t]; [reflexivity| | |].
  - specialize (Z0 _ _ T2 T3). change (positional base []) with 0 in PP. lia.
  - specialize (Z0 _ _ S2 S3). change (positional base []) with 0 in PP. lia.
  - apply (IH (positional base (x :: s))); [apply NAT|rewrite PP; apply NAT]; try assumption; try apply NN; apply HD; try assumption; apply NN.
Qed.

(** Different numbers have different texts, and a number has one. *)
Theorem C69_numerals_unique : forall base z z' s s', 2 <= base -> written base z s -> written base z' s' -> (z = z' <-> s = s').
Proof.
  intros base z z' s s' B W W'. unfold written in *. split.
  - intros <-. destruct (z <? 0).
    + destruct W as (t & -> & N), W' as (t' & -> & N'). f_equal. exact (natural_unique _ _ B _ _ N N').
    + exact (natural_unique _ _ B _ _ W W').
  - intros <-.
    assert (M : forall n t, natural base n (45 :: t) -> False) by (intros n t (_ & F & _); inversion F; lia).
    destruct (z <? 0), (z' <? 0).
    + destruct W as (t & -> & N), W' as (t' & X & N'). injection X as <-. destruct N as (_ & _ & _ & N), N' as (_ & _ & _ & N'). lia.
    + destruct W as (t & -> & N). destruct (M _ _ W').
    + destruct W' as (t & -> & N). destruct (M _ _ W).
    + destruct W as (_ & _ & _ & N), W' as (_ & _ & _ & N'). lia.
Qed.

Lemma str_of_Z_inj a b : str_of_Z a = str_of_Z b -> a = b.
Proof. intro E. apply (C69_numerals_unique 10 a b (str_of_Z a) (str_of_Z b)); [lia|apply C69_numerals|apply C69_numerals|exact E]. Qed.

Lemma str_of_Z_chars z : Forall (fun c => c = 45 \/ 48 <= c <= 57) (str_of_Z z).
Proof.
  destruct (C69_numerals z) as (W & _). unfold written in W.
  assert (D : forall n s, natural 10 n s -> Forall (fun c => c = 45 \/ 48 <= c <= 57) s).
  { intros n s (_ & F & _). eapply Forall_impl; [|exact F]. intros c (C & V). cbv beta in *. unfold digit_value in V. destruct (c <? 97) eqn:E; lia. }
  destruct (z <? 0); [destruct W as (t & -> & N); constructor; [lia|exact (D _ _ N)]|exact (D _ _ W)].
Qed.

(** *** Trees *)

Definition fields := list (field_info * ty).

(** The loops of the definitions, by name. *)
Definition fresh_kids (flags : bool) : fields -> list item :=
  fix go fs := match fs with [] => [] | (i, t) :: fs => add_schema_item flags (fi_name i) t :: go fs end.
Definition leaves_fields : fields -> list (str * value) -> list (list str * ty * option value) :=
  fix go fs vs := match fs, vs with
                  | (i, t) :: fs, (_, v) :: vs => leaves (fi_name i) t v ++ go fs vs
                  | _, _ => []
                  end.
Definition leaves_list (t : ty) : nat -> list value -> list (list str * ty * option value) :=
  fix go n vs := match vs with v :: vs => leaves (str_of_Z (Z.of_nat n)) t v ++ go (S n) vs | [] => [] end.
Definition rows_list : list item -> list (list str * item) :=
  fix go kids := match kids with [] => [] | k :: kids => rows k ++ go kids end.
Definition below {A B} (label : str) (l : list (list str * A * B)) := map (fun '(p, t, v) => (label :: p, t, v)) l.
Definition under (label : str) (l : list (list str * item)) := map (fun '(p, it) => (label :: p, it)) l.

Lemma rows_kids l tx sc hx ed k kids : rows (Item l tx sc hx ed (k :: kids)) = under l (rows_list (k :: kids)).
Proof. reflexivity. Qed.

(** **** Inversion *)

Lemma enc_object f fs v b : enc (TObject f fs) v b -> exists vs, v = VTuple vs /\ enc_fields fs vs b.
Proof. intro E. inversion E; subst. eauto. Qed.
Lemma enc_array t v b : enc (TArray t) v b -> exists vs b', v = VList vs /\ enc_list t vs b'.
Proof. intro E. inversion E; subst. eauto. Qed.
Lemma enc_fixed n t v b : enc (TFixedArray n t) v b -> exists vs, v = VList vs /\ n = Z.of_nat (length vs) /\ enc_list t vs b.
Proof. intro E. inversion E; subst. eauto. Qed.
Lemma enc_fields_cons i t fs vs b : enc_fields ((i, t) :: fs) vs b ->
  exists v vs' b1 b2, vs = (attribute (fi_name i), v) :: vs' /\ enc t v b1 /\ enc_fields fs vs' b2.
Proof. intro E. inversion E; subst. eauto 8. Qed.
Lemma enc_fields_nil vs b : enc_fields [] vs b -> vs = [].
Proof. intro E. inversion E; subst. reflexivity. Qed.
Lemma enc_list_cons t v vs b : enc_list t (v :: vs) b -> exists b1 b2, enc t v b1 /\ enc_list t vs b2.
Proof. intro E. inversion E; subst. eauto. Qed.

Section Repr.
Variable repr_other : value -> str.
Variable flags : bool.
Notation set_data := (set_data repr_other flags).
Notation row_shows := (row_shows repr_other).

Definition set_fields (attrs : list (str * value)) : fields -> list item -> list item * option exn :=
  fix go fs kids :=
    match kids with
    | [] => ([], None)
    | kid :: kids =>
        match assoc (label_of kid) attrs with
        | None => (kid :: kids, Some AttributeError)
        | Some field =>
            match fs with
            | [] => (kid :: kids, Some IndexError)
            | (_, t) :: fs =>
                match set_data t kid field with
                | (kid, Some e) => (kid :: kids, Some e)
                | (kid, None) => let '(kids, e) := go fs kids in (kid :: kids, e)
                end
            end
        end
    end.
Definition set_list (t : ty) : list value -> list item -> list item * option exn :=
  fix go vs kids :=
    match kids, vs with
    | [], _ => ([], None)
    | kids, [] => (kids, Some IndexError)
    | kid :: kids, v :: vs =>
        match set_data t kid v with
        | (kid, Some e) => (kid :: kids, Some e)
        | (kid, None) => let '(kids, e) := go vs kids in (kid :: kids, e)
        end
    end.

Lemma set_object f fs l tx sc hx ed kids vs : set_data (TObject f fs) (Item l tx sc hx ed kids) (VTuple vs) =
  let '(kids, e) := set_fields vs fs kids in (Item l tx sc hx ed kids, e).
Proof. reflexivity. Qed.
Lemma set_array t l tx sc hx ed kids vs : set_data (TArray t) (Item l tx sc hx ed kids) (VList vs) =
  let '(kids, e) := set_list t vs (kids ++ more_kids flags t (length kids) (length vs)) in (Item l tx sc hx ed kids, e).
Proof. reflexivity. Qed.
Lemma set_fixed n t l tx sc hx ed kids vs : set_data (TFixedArray n t) (Item l tx sc hx ed kids) (VList vs) =
  let '(kids, e) := set_list t vs (kids ++ more_kids flags t (length kids) (length vs)) in (Item l tx sc hx ed kids, e).
Proof. reflexivity. Qed.

(** The tree is one for the type. *)
Fixpoint built (t : ty) (it : item) : Prop :=
  let 'Item _ text sc hx ed kids := it in
  sc = Some t /\
  match t with
  | TObject _ fs =>
      text = [] /\ ed = false /\
      (fix go (fs : fields) (kids : list item) : Prop :=
         match fs, kids with
         | [], [] => True
         | (i, t) :: fs, k :: kids => label_of k = fi_name i /\ built t k /\ go fs kids
         | _, _ => False
         end) fs kids
  | TArray t | TFixedArray _ t =>
      text = [] /\ ed = flags /\
      (fix go (n : nat) (kids : list item) : Prop :=
         match kids with
         | [] => True
         | k :: kids => label_of k = str_of_Z (Z.of_nat n) /\ built t k /\ go (S n) kids
         end) O kids
  | _ => ed = flags /\ kids = []
  end.
Definition built_fields : fields -> list item -> Prop :=
  fix go fs kids := match fs, kids with
                    | [], [] => True
                    | (i, t) :: fs, k :: kids => label_of k = fi_name i /\ built t k /\ go fs kids
                    | _, _ => False
                    end.
Definition built_list (t : ty) : nat -> list item -> Prop :=
  fix go n kids := match kids with
                   | [] => True
                   | k :: kids => label_of k = str_of_Z (Z.of_nat n) /\ built t k /\ go (S n) kids
                   end.

(** The tree has no more items than the value. *)
Fixpoint room (t : ty) (it : item) (v : value) : Prop :=
  let 'Item _ _ _ _ _ kids := it in
  match t with
  | TObject _ fs =>
      match v with
      | VTuple vs =>
          (fix go (fs : fields) (kids : list item) (vs : list (str * value)) : Prop :=
             match fs, kids, vs with
             | (_, t) :: fs, k :: kids, (_, v) :: vs => room t k v /\ go fs kids vs
             | _, _, _ => True
             end) fs kids vs
      | _ => False
      end
  | TArray t | TFixedArray _ t =>
      match v with
      | VList vs =>
          (fix go (kids : list item) (vs : list value) : Prop :=
             match kids, vs with
             | [], _ => True
             | k :: kids, v :: vs => room t k v /\ go kids vs
             | _ :: _, [] => False
             end) kids vs
      | _ => False
      end
  | _ => True
  end.
Definition room_fields : fields -> list item -> list (str * value) -> Prop :=
  fix go fs kids vs := match fs, kids, vs with
                       | (_, t) :: fs, k :: kids, (_, v) :: vs => room t k v /\ go fs kids vs
                       | _, _, _ => True
                       end.
Definition room_list (t : ty) : list item -> list value -> Prop :=
  fix go kids vs := match kids, vs with
                    | [], _ => True
                    | k :: kids, v :: vs => room t k v /\ go kids vs
                    | _ :: _, [] => False
                    end.
Definition longer_fields : fields -> list (str * value) -> list (str * value) -> Prop :=
  fix go fs vs vs' := match fs, vs, vs' with
                      | (_, t) :: fs, (_, v) :: vs, (_, v') :: vs' => not_shorter t v v' /\ go fs vs vs'
                      | _, _, _ => True
                      end.
Definition longer_list (t : ty) : list value -> list value -> Prop :=
  fix go vs vs' := match vs, vs' with
                   | [], _ => True
                   | v :: vs, v' :: vs' => not_shorter t v v' /\ go vs vs'
                   | _ :: _, [] => False
                   end.
Definition keyword_free : fields -> Prop :=
  fix go fs := match fs with [] => True | (i, t) :: fs => ~ In (fi_name i) keyword_list /\ no_keyword t /\ go fs end.
Definition distinct_fields : fields -> Prop :=
  fix go fs := match fs with [] => True | (i, t) :: fs => ~ In 46 (fi_name i) /\ distinct_names t /\ go fs end.


(** **** A new tree *)

Lemma fresh_label t l : label_of (add_schema_item flags l t) = l.
Proof. destruct t; reflexivity. Qed.

Lemma fresh_built t : forall l, built t (add_schema_item flags l t).
Proof.
  induction t as [t L|f fs F|n t items IH|t IH|n t IH|t IH|ts F] using ty_induction; intro l.
  - destruct t; try contradiction; repeat split.
  - cbn [add_schema_item built]. split; [reflexivity|]. split; [reflexivity|]. split; [reflexivity|]. fold (fresh_kids flags fs). fold built_fields.
    induction F as [|[i t] fs H F IH]; [exact I|]. cbn [fresh_kids built_fields]. split; [apply fresh_label|]. split; [apply H|exact IH].
  - repeat split.
  - repeat split.
  - repeat split.
  - repeat split.
  - repeat split.
Qed.

Lemma fresh_room t : forall l v b, enc t v b -> room t (add_schema_item flags l t) v.
Proof.
  induction t as [t L|f fs F|n t items IH|t IH|n t IH|t IH|ts F] using ty_induction; intros l v b E; try exact I.
  - destruct t; try contradiction; exact I.
  - apply enc_object in E as (vs & -> & E). cbn [add_schema_item room]. fold (fresh_kids flags fs). fold room_fields. revert b vs E.
    induction F as [|[i t] fs H F IH]; intros b vs E; [exact I|]. apply enc_fields_cons in E as (v & vs' & b1 & b2 & -> & E1 & E2).
    cbn [fresh_kids room_fields]. split; [eapply H; eassumption|]. eapply IH; eassumption.
  - apply enc_array in E as (vs & b' & -> & E). cbn. destruct vs; exact I.
  - apply enc_fixed in E as (vs & -> & _ & E). cbn. destruct vs; exact I.
Qed.

Lemma fresh_hex t : forall l p, hex_at p (add_schema_item flags l t) = false.
Proof.
  induction t as [t L|f fs F|n t items IH|t IH|n t IH|t IH|ts F] using ty_induction; intros l p;
    try (destruct p as [|[|i] p]; reflexivity).
  - destruct t; try contradiction; destruct p as [|[|i] p]; reflexivity.
  - destruct p as [|i p]; [reflexivity|]. cbn [add_schema_item hex_at]. fold (fresh_kids flags fs).
    revert i. induction F as [|[j t] fs H F IH]; intro i; [destruct i; reflexivity|]. destruct i as [|i]; [apply H|apply IH].
Qed.

(** **** Setting the data *)

Lemma text_shown t hx v : text_of repr_other t hx v (shown_text repr_other t hx v).
Proof.
  destruct v as [|[]|z|f|b|s|fs|o z|l|l]; try reflexivity.
  - cbn. destruct hx; apply C69_numerals.
  - destruct (C69_numerals z) as (W & _). cbn. destruct t, o; try reflexivity; (exists (str_of_Z z); split; [exact W|reflexivity]).
Qed.

Lemma str_eqb_eq a b : str_eqb a b = true <-> a = b.
Proof. unfold str_eqb. destruct (list_eq_dec Z.eq_dec a b); split; congruence. Qed.
Lemma str_eqb_refl a : str_eqb a a = true.
Proof. apply str_eqb_eq. reflexivity. Qed.

Lemma assoc_at pre k v post : ~ In k (map fst pre) -> assoc k (pre ++ (k, v) :: post) = Some v.
Proof.
  induction pre as [|[k' v'] pre IH]; intro N; cbn [app assoc map fst In] in *.
  - rewrite str_eqb_refl. reflexivity.
  - destruct (str_eqb k k') eqn:E; [apply str_eqb_eq in E; subst; tauto|]. apply IH. tauto.
Qed.

Lemma attribute_plain n : ~ In n keyword_list -> attribute n = n.
Proof.
  intro N. unfold attribute, str_in. destruct (existsb (str_eqb n) keyword_list) eqn:E; [|reflexivity].
  apply existsb_exists in E. destruct E as (x & I & X). apply str_eqb_eq in X. subst. contradiction.
Qed.

Lemma Forall2_map2 A B C D (R : A -> B -> Prop) (Q : C -> D -> Prop) (f : A -> C) (g : B -> D) l l' :
  (forall a b, R a b -> Q (f a) (g b)) -> Forall2 R l l' -> Forall2 Q (map f l) (map g l').
Proof. intros H F. induction F; constructor; auto. Qed.

Lemma shows_below label ls rs : Forall2 row_shows ls rs -> Forall2 row_shows (below label ls) (under label rs).
Proof.
  apply Forall2_map2. intros [[p t] v] [p' [l tx sc hx ed kids]] (-> & S & V). split; [reflexivity|]. split; assumption.
Qed.

Definition good (t : ty) : Prop := no_keyword t -> distinct_names t -> forall it v b, enc t v b -> built t it -> room t it v ->
  exists it', set_data t it v = (it', None) /\ built t it' /\ label_of it' = label_of it /\
    Forall2 row_shows (leaves (label_of it) t v) (rows it') /\
    (forall v' b', enc t v' b' -> not_shorter t v v' -> room t it' v') /\
    (forall p, hex_at p it' = hex_at p it).

Lemma good_leaf t : leaf_ty t -> good t.
Proof.
  intros L _ _ [l tx sc hx ed kids] v b E B R.
  assert (K : kids = [] /\ sc = Some t /\ ed = flags) by (destruct t; try contradiction; cbn in B; tauto).
  destruct K as (-> & -> & ->). exists (Item l (shown_text repr_other t hx v) (Some t) hx flags []).
  split; [destruct t; try contradiction; reflexivity|]. split; [destruct t; try contradiction; repeat split|]. split; [reflexivity|].
  split; [|split; [destruct t; try contradiction; intros; exact I|intros [|i p]; reflexivity]].
  replace (leaves (label_of (Item l tx (Some t) hx flags [])) t v) with [([l], t, Some v)] by (destruct t; try contradiction; reflexivity).
  constructor; [|constructor]. split; [reflexivity|]. split; [reflexivity|]. apply text_shown.
Qed.

Lemma good_fields fs : Forall (fun f => good (snd f)) fs -> keyword_free fs -> distinct_fields fs -> NoDup (map (fun f => fi_name (fst f)) fs) ->
  forall attrs pre vs b kids, attrs = pre ++ vs -> (forall f, In f fs -> ~ In (fi_name (fst f)) (map fst pre)) ->
  enc_fields fs vs b -> built_fields fs kids -> room_fields fs kids vs ->
  exists kids', set_fields attrs fs kids = (kids', None) /\ built_fields fs kids' /\
    Forall2 row_shows (leaves_fields fs vs) (rows_list kids') /\
    (forall vs' b', enc_fields fs vs' b' -> longer_fields fs vs vs' -> room_fields fs kids' vs') /\
    (forall i p, match nth_error kids' i with Some k => hex_at p k | None => false end =
                 match nth_error kids i with Some k => hex_at p k | None => false end).
Proof.
  induction 1 as [|[i t] fs G F IH]; intros K D ND attrs pre vs b kids -> NP E B R.
  - apply enc_fields_nil in E. subst. destruct kids; [|contradiction]. exists []. repeat split; try constructor.
  - cbn [snd] in G. apply enc_fields_cons in E as (v & vs1 & b1 & b2 & -> & Ev & Evs). destruct kids as [|k kids]; [contradiction|].
    destruct K as (K1 & K2 & K3). destruct D as (_ & D2 & D3). inversion ND as [|? ? N1 N2]; subst.
    destruct B as (B1 & B2 & B3). destruct R as (R1 & R2). rewrite attribute_plain in * by exact K1.
    destruct (G K2 D2 k v b1 Ev B2 R1) as (k' & S1 & S2 & S3 & S4 & S5 & S6).
    destruct (IH K3 D3 N2 (pre ++ (fi_name i, v) :: vs1) (pre ++ [(fi_name i, v)]) vs1 b2 kids) as (kids' & T1 & T2 & T4 & T5 & T6).
    + rewrite <- app_assoc. reflexivity.
    + intros f I. rewrite map_app. cbn [map fst]. intro J. apply in_app_or in J. destruct J as [J|[J|[]]].
      * apply (NP f (or_intror I) J).
      * apply N1. apply in_map_iff. exists f. split; [symmetry; exact J|exact I].
    + exact Evs.
    + exact B3.
    + exact R2.
    + exists (k' :: kids'). cbn [set_fields]. rewrite B1, assoc_at by apply (NP (i, t) (or_introl eq_refl)). rewrite S1. fold (set_fields (pre ++ (fi_name i, v) :: vs1)).
      rewrite T1. split; [reflexivity|]. split; [split; [congruence|split; assumption]|].
      split; [cbn [leaves_fields rows_list]; rewrite B1 in S4; apply Forall2_app; assumption|].
      split.
      * intros vs' b' E' L. apply enc_fields_cons in E' as (v' & vs2 & b3 & b4 & -> & E1 & E2). destruct L as (L1 & L2). split; [eapply S5; eassumption|]. eapply T5; eassumption.
      * intros [|j] p; [apply S6|apply T6].
Qed.

Lemma good_list t : good t -> no_keyword t -> distinct_names t ->
  forall vs n b kids, enc_list t vs b -> built_list t n kids -> room_list t kids vs -> length kids = length vs ->
  exists kids', set_list t vs kids = (kids', None) /\ built_list t n kids' /\ length kids' = length vs /\
    Forall2 row_shows (leaves_list t n vs) (rows_list kids') /\
    (forall vs' b', enc_list t vs' b' -> longer_list t vs vs' -> room_list t kids' vs') /\
    (forall i p, match nth_error kids' i with Some k => hex_at p k | None => false end =
                 match nth_error kids i with Some k => hex_at p k | None => false end).
Proof.
  intros G K D. induction vs as [|v vs IH]; intros n b kids E B R L.
  - destruct kids; [|discriminate]. exists []. repeat split; try constructor.
  - destruct kids as [|k kids]; [discriminate|]. apply enc_list_cons in E as (b1 & b2 & Ev & Evs).
    destruct B as (B1 & B2 & B3). destruct R as (R1 & R2). injection L as L.
    destruct (G K D k v b1 Ev B2 R1) as (k' & S1 & S2 & S3 & S4 & S5 & S6).
    destruct (IH (S n) b2 kids Evs B3 R2 L) as (kids' & T1 & T2 & T3 & T4 & T5 & T6).
    exists (k' :: kids'). cbn [set_list]. rewrite S1. fold (set_list t). rewrite T1. split; [reflexivity|].
    split; [split; [congruence|split; assumption]|]. split; [cbn; congruence|].
    split; [cbn [leaves_list rows_list]; rewrite B1 in S4; apply Forall2_app; assumption|].
    split.
    + intros vs' b' E' L'. destruct vs' as [|v' vs']; [contradiction|]. apply enc_list_cons in E' as (b3 & b4 & E1 & E2). destruct L' as (L1 & L2).
      split; [eapply S5; eassumption|]. eapply T5; eassumption.
    + intros [|j] p; [apply S6|apply T6].
Qed.

Lemma built_list_app t kids : forall n more, built_list t n kids -> built_list t (n + length kids) more -> built_list t n (kids ++ more).
Proof.
  induction kids as [|k kids IH]; intros n more B M; [rewrite Nat.add_0_r in M; exact M|]. destruct B as (B1 & B2 & B3).
  split; [exact B1|]. split; [exact B2|]. apply IH; [exact B3|]. cbn [length] in M. rewrite Nat.add_succ_r in M. exact M.
Qed.

Lemma more_built t : forall m n, built_list t n (map (fun i => add_schema_item flags (str_of_Z (Z.of_nat i)) t) (seq n m)).
Proof.
  induction m as [|m IH]; intro n; [exact I|]. cbn [seq map built_list]. split; [apply fresh_label|]. split; [apply fresh_built|apply IH].
Qed.

Lemma more_room t : forall kids vs b n, enc_list t vs b -> room_list t kids vs ->
  room_list t (kids ++ map (fun i => add_schema_item flags (str_of_Z (Z.of_nat i)) t) (seq n (length vs - length kids))) vs.
Proof.
  induction kids as [|k kids IH]; intros vs b n E R.
  - rewrite Nat.sub_0_r. cbn [app length]. clear R. revert n b E. induction vs as [|v vs IH]; intros n b E; [exact I|]. apply enc_list_cons in E as (b1 & b2 & E1 & E2).
    cbn [length seq map room_list]. split; [eapply fresh_room; eassumption|]. eapply IH; eassumption.
  - destruct vs as [|v vs]; [contradiction|]. apply enc_list_cons in E as (b1 & b2 & E1 & E2). destruct R as (R1 & R2). cbn [app room_list length Nat.sub].
    split; [exact R1|]. eapply IH; eassumption.
Qed.

Lemma room_length t : forall kids vs, room_list t kids vs -> (length kids <= length vs)%nat.
Proof. induction kids as [|k kids IH]; intros [|v vs] R; cbn; try lia; [contradiction|]. destruct R as (_ & R). apply IH in R. lia. Qed.

Lemma more_hex t kids n m : forall i p,
  match nth_error (kids ++ map (fun i => add_schema_item flags (str_of_Z (Z.of_nat i)) t) (seq n m)) i with Some k => hex_at p k | None => false end =
  match nth_error kids i with Some k => hex_at p k | None => false end.
Proof.
  revert n. induction kids as [|k kids IH]; intros n i p.
  - replace (nth_error [] i) with (@None item) by (destruct i; reflexivity). cbn [app]. revert n i. induction m as [|m IH]; intros n i; [destruct i; reflexivity|].
    destruct i as [|i]; [apply fresh_hex|apply IH].
  - destruct i as [|i]; [reflexivity|apply IH].
Qed.

Lemma good_array t : good t -> no_keyword t -> distinct_names t -> forall label tx sc hx ed kids vs b,
  enc_list t vs b -> built_list t 0 kids -> room_list t kids vs ->
  let kids1 := kids ++ more_kids flags t (length kids) (length vs) in
  exists kids', set_list t vs kids1 = (kids', None) /\ built_list t 0 kids' /\ length kids' = length vs /\
    Forall2 row_shows (leaves_list t 0 vs) (rows_list kids') /\
    (forall vs' b', enc_list t vs' b' -> longer_list t vs vs' -> room_list t kids' vs') /\
    (forall p, hex_at p (Item label tx sc hx ed kids') = hex_at p (Item label tx sc hx ed kids)).
Proof.
  intros G K D label tx sc hx ed kids vs b E B R kids1. pose proof (room_length _ _ _ R) as L.
  destruct (good_list t G K D vs 0 b kids1 E) as (kids' & T1 & T2 & T3 & T4 & T5 & T6).
  - apply built_list_app; [exact B|]. apply more_built.
  - eapply more_room; eassumption.
  - unfold kids1, more_kids. rewrite app_length, map_length, seq_length. lia.
  - exists kids'. repeat (split; [assumption|]). intros [|i p]; [reflexivity|]. cbn [hex_at]. rewrite T6. apply more_hex.
Qed.

Lemma good_all t : good t.
Proof.
  induction t as [t L|f fs F|n t items IH|t IH|n t IH|t IH|ts F] using ty_induction; try (apply good_leaf; exact I).
  - apply good_leaf. destruct t; try contradiction; exact I.
  - intros K (D1 & D2) [l tx sc hx ed kids] v b E B R. apply enc_object in E as (vs & -> & Ef).
    cbn [built] in B. fold built_fields in B. destruct B as (-> & -> & -> & B).
    cbn [room] in R. fold room_fields in R. cbn [no_keyword] in K. fold keyword_free in K. fold distinct_fields in D2.
    destruct (good_fields fs F K D2 D1 vs [] vs b kids eq_refl ltac:(intros ? ? []) Ef B R) as (kids' & T1 & T2 & T4 & T5 & T6).
    exists (Item l [] (Some (TObject f fs)) hx false kids'). split.
    + rewrite set_object, T1. reflexivity.
    + split; [cbn [built]; fold built_fields; auto|]. split; [reflexivity|]. split.
      * destruct fs as [|[i t] fs].
        -- destruct kids'; [|contradiction]. apply enc_fields_nil in Ef. subst. constructor; [|constructor]. repeat split.
        -- destruct kids' as [|k kids']; [contradiction|]. rewrite rows_kids. cbn [leaves label_of]. fold leaves_fields. apply (shows_below l _ _ T4).
      * split.
        -- intros v' b' E' N. apply enc_object in E' as (vs' & -> & E'). cbn [room]. fold room_fields. eapply T5; [eassumption|exact N].
        -- intros [|i p]; [reflexivity|]. cbn [hex_at]. apply T6.
  - intros K D [l tx sc hx ed kids] v b E B R. apply enc_array in E as (vs & b1 & -> & El).
    cbn [built] in B. fold (built_list t) in B. destruct B as (-> & -> & -> & B). cbn [room] in R. fold (room_list t) in R.
    destruct (good_array t IH K D l [] (Some (TArray t)) hx flags kids vs b1 El B R) as (kids' & T1 & T2 & T3 & T4 & T5 & T6).
    exists (Item l [] (Some (TArray t)) hx flags kids'). split.
    + rewrite set_array, T1. reflexivity.
    + split; [cbn [built]; fold (built_list t); auto|]. split; [reflexivity|]. split.
      * destruct vs as [|v vs].
        -- destruct kids'; [|discriminate]. constructor; [|constructor]. repeat split.
        -- destruct kids' as [|k kids']; [discriminate|]. rewrite rows_kids. cbn [leaves label_of]. fold (leaves_list t). apply (shows_below l _ _ T4).
      * split; [|exact T6]. intros v' b' E' N. apply enc_array in E' as (vs' & b2 & -> & E'). cbn [room]. fold (room_list t). eapply T5; [eassumption|exact N].
  - intros K D [l tx sc hx ed kids] v b E B R. apply enc_fixed in E as (vs & -> & -> & El).
    cbn [built] in B. fold (built_list t) in B. destruct B as (-> & -> & -> & B). cbn [room] in R. fold (room_list t) in R.
    destruct (good_array t IH K D l [] (Some (TFixedArray (Z.of_nat (length vs)) t)) hx flags kids vs b El B R) as (kids' & T1 & T2 & T3 & T4 & T5 & T6).
    exists (Item l [] (Some (TFixedArray (Z.of_nat (length vs)) t)) hx flags kids'). split.
    + rewrite set_fixed, T1. reflexivity.
    + split; [cbn [built]; fold (built_list t); auto|]. split; [reflexivity|]. split.
      * destruct vs as [|v vs].
        -- destruct kids'; [|discriminate]. constructor; [|constructor]. repeat split.
        -- destruct kids' as [|k kids']; [discriminate|]. rewrite rows_kids. cbn [leaves label_of]. fold (leaves_list t). apply (shows_below l _ _ T4).
      * split; [|exact T6]. intros v' b' E' N. apply enc_fixed in E' as (vs' & -> & _ & E'). cbn [room]. fold (room_list t). eapply T5; [eassumption|exact N].
Qed.

End Repr.

(** **** Names *)

Lemma plain_no_dot s : plain_name s -> ~ In 46 s.
Proof.
  intros (_ & I & _) D. unfold ascii_identifier in I. destruct s as [|c s]; [discriminate|]. apply andb_prop in I as (I1 & I2).
  rewrite forallb_forall in I2. destruct D as [->|D]; [discriminate|]. specialize (I2 _ D). discriminate.
Qed.

Lemma schema_distinct :
  (forall nm t b, schema nm t b -> distinct_names t) /\
  (forall fs b, schema_fields fs b -> distinct_fields fs) /\
  (forall ts b, schema_list ts b -> True).
Proof.
  apply schema_mutind; intros; try exact I; try assumption.
  - split; [|assumption]. unfold attribute_names in *. rewrite <- map_map with (g := attribute) in H3. apply NoDup_map_inv in H3. exact H3.
  - split; [apply plain_no_dot; assumption|]. split; assumption.
Qed.

(** *** The configuration *)

Lemma built_rows flags t : forall it, built flags t it -> forall p r, In (p, r) (rows it) ->
  editable_of r = flags \/ exists f, schema_in r = Some (TObject f []).
Proof.
  induction t as [t L|f fs F|n t items IH|t IH|n t IH|t IH|ts F] using ty_induction; intros [l tx sc hx ed kids] B p r R.
  - assert (K : kids = [] /\ ed = flags) by (destruct t; try contradiction; cbn in B; tauto). destruct K as (-> & ->).
    destruct R as [R|[]]. injection R as <- <-. left. reflexivity.
  - cbn [built] in B. fold (built_fields flags) in B. destruct B as (-> & _ & -> & B). destruct kids as [|k kids].
    + destruct R as [R|[]]. injection R as <- <-. right. destruct fs as [|[i t] fs]; [|contradiction]. exists f. reflexivity.
    + rewrite rows_kids in R. apply in_map_iff in R as ([p' r'] & X & R). injection X as <- <-.
      revert R B. clear tx hx. generalize (k :: kids) as ks. clear k kids. induction F as [|[i t] fs H F IH]; intros [|k ks] R B; try contradiction.
      destruct B as (_ & B1 & B2). cbn [rows_list] in R. apply in_app_or in R. destruct R as [R|R]; [eapply H; eassumption|eapply IH; eassumption].
  - cbn in B. destruct B as (_ & -> & ->). destruct R as [R|[]]. injection R as <- <-. left. reflexivity.
  - cbn [built] in B. fold (built_list flags t) in B. destruct B as (-> & _ & -> & B). destruct kids as [|k kids].
    + destruct R as [R|[]]. injection R as <- <-. left. reflexivity.
    + rewrite rows_kids in R. apply in_map_iff in R as ([p' r'] & X & R). injection X as <- <-. revert R B. generalize O as m. generalize (k :: kids) as ks.
      induction ks as [|q ks IHk]; intros m R B; [contradiction|]. destruct B as (_ & B1 & B2). cbn [rows_list] in R. apply in_app_or in R.
      destruct R as [R|R]; [eapply IH; eassumption|eapply IHk; eassumption].
  - cbn [built] in B. fold (built_list flags t) in B. destruct B as (-> & _ & -> & B). destruct kids as [|k kids].
    + destruct R as [R|[]]. injection R as <- <-. left. reflexivity.
    + rewrite rows_kids in R. apply in_map_iff in R as ([p' r'] & X & R). injection X as <- <-. revert R B. generalize O as m. generalize (k :: kids) as ks.
      induction ks as [|q ks IHk]; intros m R B; [contradiction|]. destruct B as (_ & B1 & B2). cbn [rows_list] in R. apply in_app_or in R.
      destruct R as [R|R]; [eapply IH; eassumption|eapply IHk; eassumption].
  - cbn in B. destruct B as (_ & -> & ->). destruct R as [R|[]]. injection R as <- <-. left. reflexivity.
  - cbn in B. destruct B as (_ & -> & ->). destruct R as [R|[]]. injection R as <- <-. left. reflexivity.
Qed.

(** The tree of an element shows every single value in it, under its name, and all of them can
    be edited. *)
Theorem C69_config : forall repr_other name t v bs bd, schema name t bs -> no_keyword t -> enc t v bd ->
  exists it, config_item repr_other name t v = (it, None) /\
    Forall2 (row_shows repr_other) (leaves name t v) (rows it) /\
    forall p r, In (p, r) (rows it) -> editable_of r = true \/ exists f, schema_in r = Some (TObject f []).
Proof.
  intros repr_other name t v bs bd S K E. pose proof (proj1 schema_distinct _ _ _ S) as D.
  destruct (good_all repr_other true t K D (add_schema_item true name t) v bd E (fresh_built _ _ _) (fresh_room _ _ _ _ _ E)) as (it & A & B & L & R & _).
  exists it. split; [exact A|]. rewrite fresh_label in R. split; [exact R|]. apply built_rows with (t := t). exact B.
Qed.

(** *** Telemetry *)


Definition change_at (f : item -> item) : nat -> list item -> list item :=
  fix go i kids := match kids, i with
                   | [], _ => []
                   | kid :: kids, O => f kid :: kids
                   | kid :: kids, S i => kid :: go i kids
                   end.

Lemma format_kids i p h l tx sc hx ed kids : set_format (i :: p) h (Item l tx sc hx ed kids) =
  Item l tx sc hx ed (change_at (set_format p h) i kids).
Proof. reflexivity. Qed.

Lemma format_label p h it : label_of (set_format p h it) = label_of it.
Proof. destruct it as [l tx sc hx ed kids], p as [|i p]; [destruct kids|]; reflexivity. Qed.

Lemma format_built flags p h : forall t it, built flags t it -> built flags t (set_format p h it).
Proof.
  induction p as [|i p IH]; intros t [l tx sc hx ed kids] B.
  - destruct kids; [|exact B]. destruct t; exact B.
  - rewrite format_kids.
    assert (NIL : forall j, change_at (set_format p h) j [] = []) by (intros [|j]; reflexivity).
    assert (ARR : forall t n, built_list flags t n kids -> built_list flags t n (change_at (set_format p h) i kids)).
    { clear - IH NIL. intro t. revert i. induction kids as [|k kids IHk]; intros i n B; [rewrite NIL; exact I|]. destruct B as (B1 & B2 & B3).
      destruct i as [|i]; cbn [change_at built_list]; [rewrite format_label|]; auto. }
    destruct t as [| | |s|s| | | | | | |f fs|n t items|t|n t|t|ts| |];
      try (cbn [built] in B |- *; destruct B as (B1 & B2 & ->); rewrite NIL; repeat split; assumption).
    + cbn [built] in B |- *. fold (built_fields flags) in B |- *. destruct B as (B1 & B2 & B3 & B). repeat (split; [assumption|]).
      clear - IH B NIL. revert i kids B. induction fs as [|[j t] fs IHf]; intros i [|k kids] B; try contradiction; [rewrite NIL; exact I|].
      destruct B as (B1 & B2 & B3). destruct i as [|i]; cbn [change_at built_fields]; [rewrite format_label|]; auto.
    + cbn [built] in B |- *. fold (built_list flags t) in B |- *. destruct B as (B1 & B2 & B3 & B). repeat (split; [assumption|]). apply ARR. exact B.
    + cbn [built] in B |- *. fold (built_list flags t) in B |- *. destruct B as (B1 & B2 & B3 & B). repeat (split; [assumption|]). apply ARR. exact B.
Qed.

Lemma format_room p h : forall t it v, room t it v -> room t (set_format p h it) v.
Proof.
  induction p as [|i p IH]; intros t [l tx sc hx ed kids] v R.
  - destruct kids; [|exact R]. destruct t; exact R.
  - rewrite format_kids.
    assert (NIL : forall j, change_at (set_format p h) j [] = []) by (intros [|j]; reflexivity).
    assert (ARR : forall t vs, room_list t kids vs -> room_list t (change_at (set_format p h) i kids) vs).
    { clear - IH NIL. intro t. revert i. induction kids as [|k kids IHk]; intros i vs R; [rewrite NIL; destruct vs; exact I|].
      destruct vs as [|v vs]; [contradiction|]. destruct R as (R1 & R2). destruct i as [|i]; cbn [change_at room_list]; auto. }
    destruct t as [| | |s|s| | | | | | |f fs|n t items|t|n t|t|ts| |]; try exact I.
    + destruct v as [|?|?|?|?|?|vs|? ?|?|?]; try contradiction. cbn [room] in R |- *. fold room_fields in R |- *.
      clear - IH R NIL. revert i kids vs R. induction fs as [|[j t] fs IHf]; intros i [|k kids] vs R; try exact I; [rewrite NIL; exact I|].
      destruct vs as [|[a v] vs]; [destruct i; exact I|]. destruct R as (R1 & R2). destruct i as [|i]; cbn [change_at room_fields]; auto.
    + destruct v as [|?|?|?|?|?|?|? ?|vs|?]; try contradiction. cbn [room] in R |- *. fold (room_list t) in R |- *. apply ARR. exact R.
    + destruct v as [|?|?|?|?|?|?|? ?|vs|?]; try contradiction. cbn [room] in R |- *. fold (room_list t) in R |- *. apply ARR. exact R.
Qed.

Lemma format_hex p h : forall q it, hex_at q (set_format p h it) =
  if list_eq_dec Nat.eq_dec q p then (if leaf_at p it then h else hex_at q it) else hex_at q it.
Proof.
  induction p as [|i p IH]; intros q [l tx sc hx ed kids].
  - destruct kids as [|k kids].
    + destruct q as [|j q]; [reflexivity|]. destruct (list_eq_dec Nat.eq_dec (j :: q) []); [discriminate|]. destruct j; reflexivity.
    + cbn [set_format leaf_at]. destruct (list_eq_dec Nat.eq_dec q []); reflexivity.
  - rewrite format_kids. destruct q as [|j q]; [reflexivity|]. cbn [hex_at leaf_at].
    assert (G : forall kids i, nth_error (change_at (set_format p h) i kids) j =
       if Nat.eq_dec j i then option_map (set_format p h) (nth_error kids j) else nth_error kids j).
    { clear. induction j as [|j IH]; intros [|k kids] [|i]; cbn [change_at nth_error];
        try (match goal with |- context [Nat.eq_dec ?a ?b] => destruct (Nat.eq_dec a b) end; try lia; reflexivity).
      rewrite IH. destruct (Nat.eq_dec j i), (Nat.eq_dec (S j) (S i)); try reflexivity; lia. }
    rewrite G. destruct (Nat.eq_dec j i) as [->|N].
    + destruct (nth_error kids i) as [k|] eqn:X; cbn [option_map].
      * rewrite IH. destruct (list_eq_dec Nat.eq_dec q p), (list_eq_dec Nat.eq_dec (i :: q) (i :: p)); try congruence; reflexivity.
      * destruct (list_eq_dec Nat.eq_dec (i :: q) (i :: p)); reflexivity.
    + destruct (list_eq_dec Nat.eq_dec (j :: q) (i :: p)) as [Y|]; [congruence|]. reflexivity.
Qed.

Lemma chain_app t : forall a v, chain t (a ++ [v]) -> chain t a /\ (forall w, last a w = last a v -> a <> [] -> not_shorter t (last a w) v).
Proof.
  induction a as [|x a IH]; intros v C; [split; [exact I|congruence]|]. destruct a as [|y a].
  - destruct C as (C & _). split; [exact I|]. intros w _ _. exact C.
  - change ((x :: y :: a) ++ [v]) with (x :: y :: (a ++ [v])) in C. destruct C as (C1 & C2). destruct (IH v C2) as (D1 & D2).
    split; [split; assumption|]. intros w L _. change (last (x :: y :: a) w) with (last (y :: a) w) in *. apply D2; [exact L|discriminate].
Qed.

Lemma runs_ok repr_other name t bs : schema name t bs -> no_keyword t -> forall es,
  Forall (fun v => exists b, enc t v b) (values es) -> chain t (values es) ->
  let '(it, errors) := tree_runs repr_other name t es in
  errors = [] /\ built false t it /\ label_of it = name /\
  (values es = [] -> forall v b, enc t v b -> room t it v) /\
  (values es <> [] -> forall w v b, enc t v b -> not_shorter t (last (values es) w) v -> room t it v) /\
  (forall es' v, es = es' ++ [TData v] -> Forall2 (row_shows repr_other) (leaves name t v) (rows it) /\
     forall p, hex_at p it = hex_at p (fst (tree_runs repr_other name t es'))).
Proof.
  intros S K. pose proof (proj1 schema_distinct _ _ _ S) as D. induction es as [|e es IH] using rev_ind; intros T C.
  - cbn. split; [reflexivity|]. split; [apply fresh_built|]. split; [apply fresh_label|]. split; [intros; eapply fresh_room; eassumption|].
    split; [congruence|]. intros es' v X. destruct es'; discriminate.
  - assert (V : values (es ++ [e]) = values es ++ values [e]) by apply flat_map_app. rewrite V in T, C.
    unfold tree_runs in *. rewrite fold_left_app. apply Forall_app in T as (T1 & T2).
    assert (CE : chain t (values es)) by (destruct e; [apply (chain_app t _ v C)|cbn in C; rewrite app_nil_r in C; exact C]).
    specialize (IH T1 CE). destruct (fold_left (tree_step repr_other t) es (add_schema_item false name t, [])) as [it errors] eqn:F.
    destruct IH as (-> & B & L & R1 & R2 & R3). cbn [fold_left tree_step]. destruct e as [v|p h].
    + inversion T2 as [|? ? (b & E) _]; subst.
      assert (R : room t it v).
      { destruct (values es) as [|x xs] eqn:X; [eapply R1; [reflexivity|exact E]|]. eapply (R2 ltac:(discriminate) v); [exact E|].
        apply (chain_app t _ v C); [reflexivity|discriminate]. }
      destruct (good_all repr_other false t K D it v b E B R) as (it' & A1 & A2 & A3 & A4 & A5 & A6). rewrite A1.
      split; [reflexivity|]. split; [exact A2|]. split; [congruence|]. rewrite V. change (values [TData v]) with [v].
      split; [intro X; apply app_eq_nil in X as (_ & X); discriminate|].
      split; [intros _ w v' b' E' N; rewrite last_last in N; eapply A5; eassumption|].
      intros es' v' X. apply app_inj_tail in X as (<- & X). injection X as <-. rewrite F. split; [exact A4|exact A6].
    + split; [reflexivity|]. split; [apply format_built; exact B|]. split; [rewrite format_label; exact L|]. rewrite V. change (values [TFormat p h]) with (@nil value). rewrite app_nil_r.
      split; [intros; apply format_room; eapply R1; eassumption|]. split; [intros; apply format_room; eapply R2; eassumption|].
      intros es' v' X. apply app_inj_tail in X as (_ & X). discriminate.
Qed.

(** After any history of values, with arrays that do not become shorter, and of formats chosen by
    the user: the tree shows the last value, without an error. *)
Theorem C69_telemetry : forall repr_other name t bs es v, schema name t bs -> no_keyword t ->
  Forall (fun v => exists b, enc t v b) (values (es ++ [TData v])) -> chain t (values (es ++ [TData v])) ->
  let '(it, errors) := tree_runs repr_other name t (es ++ [TData v]) in
  errors = [] /\ Forall2 (row_shows repr_other) (leaves name t v) (rows it).
Proof.
  intros repr_other name t bs es v S K T C. pose proof (runs_ok repr_other name t bs S K _ T C) as H.
  destruct (tree_runs repr_other name t (es ++ [TData v])) as [it errors]. destruct H as (-> & _ & _ & _ & _ & H). split; [reflexivity|].
  apply (H es v eq_refl).
Qed.

Lemma fixed_not_shorter t : fixed_size t -> forall v b v' b', enc t v b -> enc t v' b' -> not_shorter t v v'.
Proof.
  induction t as [t L|f fs F|n t items IH|t IH|n t IH|t IH|ts F] using ty_induction; intros X v b v' b' E E'; try exact I; try contradiction.
  - destruct t; try contradiction; exact I.
  - apply enc_object in E as (vs & -> & E), E' as (vs' & -> & E'). cbn [not_shorter]. fold longer_fields. revert X b b' vs vs' E E'.
    induction F as [|[i t] fs H F IH]; intros X b b' vs vs' E E'; [exact I|]. destruct X as (X1 & X2).
    apply enc_fields_cons in E as (v & vs1 & b1 & b2 & -> & E1 & E2), E' as (v' & vs2 & b3 & b4 & -> & E3 & E4).
    split; [eapply H; eassumption|]. eapply IH; eassumption.
  - apply enc_fixed in E as (vs & -> & -> & E), E' as (vs' & -> & N & E'). cbn [not_shorter]. fold (longer_list t). cbn [fixed_size] in X.
    assert (G : length vs = length vs') by lia. clear N. revert b b' vs' E E' G. induction vs as [|v vs IHv]; intros b b' [|v' vs'] E E' G; try exact I; try discriminate.
    apply enc_list_cons in E as (b1 & b2 & E1 & E2), E' as (b3 & b4 & E3 & E4). split; [eapply IH; eassumption|]. eapply IHv; try eassumption. injection G as G. exact G.
Qed.

(** Where all arrays have a fixed size, that is so for every history. *)
Theorem C69_telemetry_fixed : forall repr_other name t bs es v, schema name t bs -> no_keyword t -> fixed_size t ->
  Forall (fun v => exists b, enc t v b) (values (es ++ [TData v])) ->
  let '(it, errors) := tree_runs repr_other name t (es ++ [TData v]) in
  errors = [] /\ Forall2 (row_shows repr_other) (leaves name t v) (rows it).
Proof.
  intros repr_other name t bs es v S K X T. eapply C69_telemetry; try eassumption.
  revert T. generalize (values (es ++ [TData v])). induction l as [|a l IH]; intro T; [exact I|]. inversion T as [|? ? (b & E) T2]; subst.
  destruct l as [|c l]; [exact I|]. inversion T2 as [|? ? (b' & E') _]; subst. split; [eapply fixed_not_shorter; eassumption|]. apply IH. exact T2.
Qed.

(** Numbers are shown in the format that was last chosen for the item. *)
Theorem C69_format : forall repr_other name t bs es e q, schema name t bs -> no_keyword t ->
  Forall (fun v => exists b, enc t v b) (values (es ++ [e])) -> chain t (values (es ++ [e])) ->
  let before := fst (tree_runs repr_other name t es) in
  hex_at q (fst (tree_runs repr_other name t [])) = false /\
  hex_at q (fst (tree_runs repr_other name t (es ++ [e]))) =
  match e with
  | TFormat p h => if list_eq_dec Nat.eq_dec q p then (if leaf_at p before then h else hex_at q before) else hex_at q before
  | TData _ => hex_at q before
  end.
Proof.
  intros repr_other name t bs es e q S K T C before. split; [apply fresh_hex|]. destruct e as [v|p h].
  - pose proof (runs_ok repr_other name t bs S K _ T C) as H. destruct (tree_runs repr_other name t (es ++ [TData v])) as [it errors].
    destruct H as (_ & _ & _ & _ & _ & H). apply (H es v eq_refl).
  - unfold before, tree_runs. rewrite fold_left_app. destruct (fold_left (tree_step repr_other t) es (add_schema_item false name t, [])) as [it errors].
    cbn [fold_left tree_step fst]. apply format_hex.
Qed.

(** For the examples *)
Lemma small_uint z : 0 <= z < 128 -> uint z [z].
Proof. intro Z. split; [constructor; exact Z|change (z mod 1 < 2 ^ 64); rewrite Z.mod_1_r; lia]. Qed.
Lemma small_enc z : 0 <= z < 256 -> enc (TUInt 1) (VInt z) [z].
Proof. intro Z. apply e_uint; [left; reflexivity|cbn; lia|]. unfold word. change (le_bytes (Z.to_nat 1) z) with [z mod 256]. rewrite Z.mod_small by lia. reflexivity. Qed.
Definition plain_field (name : str) (t : ty) : field_info * ty :=
  ({| fi_flags := 0; fi_name := name; fi_aliases := []; fi_default := None |}, t).
Lemma small_text s : Forall (fun c => 0 <= c < 128) s -> (length s < 128)%nat -> text s (Z.of_nat (length s) :: s).
Proof.
  intros F L. split; [eapply Forall_impl; [|exact F]; intros c C; cbv beta in C; left; lia|].
  assert (utf8 s = s) as U.
  { clear L. induction F as [|c s C F IH]; [reflexivity|]. unfold utf8 in *. cbn [flat_map]. unfold utf8_char. replace (c <? 128) with true by lia. cbn [app]. f_equal. exact IH. }
  rewrite U. split; [lia|]. exists [Z.of_nat (length s)]. split; [apply small_uint; lia|reflexivity].
Qed.
Lemma small_field name t fs bt b : plain_name name -> name <> lit "async" -> name <> lit "await" ->
  Forall (fun c => 0 <= c < 128) name -> (length name < 128)%nat -> schema name t bt -> t <> TFinal -> schema_fields fs b ->
  schema_fields (plain_field name t :: fs) ([0] ++ (Z.of_nat (length name) :: name) ++ [0] ++ [] ++ bt ++ [0] ++ b).
Proof. intros P N1 N2 F L S T R. apply sf_cons; try assumption; try (apply small_uint; cbn; lia); [apply small_text; assumption|constructor|constructor]. Qed.

(** A shorter array leaves old values on the screen, and an error. *)
Theorem C69_shorter_refuted : exists name t bs v v' b b',
  schema name t bs /\ no_keyword t /\ enc t v b /\ enc t v' b' /\
  let '(it, errors) := tree_runs (fun _ => []) name t [TData v; TData v'] in
  errors = [IndexError] /\ (length (rows it) > length (leaves name t v'))%nat.
Proof.
  exists (lit "x"), (TArray (TUInt 1)), ([18] ++ ([4] ++ [1])), (VList [VInt 1; VInt 2]), (VList [VInt 3]), ([2] ++ [1] ++ [2] ++ []), ([1] ++ [3] ++ []).
  split; [apply s_array; [apply small_uint; lia|apply s_uint; [apply small_uint; lia|left; reflexivity]]|]. split; [exact I|].
  split; [apply e_array; [apply small_uint; cbn; lia|repeat apply el_cons; try apply el_nil; apply small_enc; lia]|].
  split; [apply e_array; [apply small_uint; cbn; lia|repeat apply el_cons; try apply el_nil; apply small_enc; lia]|].
  vm_compute. split; [reflexivity|]. lia.
Qed.

(** A field with the name of a keyword stops the update. *)
Theorem C69_keyword_refuted : exists name t bs v b,
  schema name t bs /\ enc t v b /\ snd (config_item (fun _ => []) name t v) = Some AttributeError.
Proof.
  exists (lit "x"), (TObject 0 [plain_field (lit "in") TBool]). eexists. exists (VTuple [(lit "py_in", VBool true)]). eexists.
  split; [|split; [|reflexivity]].
  - apply s_object; [apply small_uint; lia|apply small_uint; lia| |repeat constructor; intros []].
    apply small_field; try discriminate; [repeat split|repeat constructor; discriminate|cbn; lia|apply s_bool; apply small_uint; lia|apply sf_nil].
  - apply e_object. change (lit "py_in") with (attribute (lit "in")).
    eapply (ef_cons {| fi_flags := 0; fi_name := lit "in"; fi_aliases := []; fi_default := None |}); [discriminate|discriminate|apply (e_bool 1); lia|apply ef_nil].
Qed.

(** *** Edits *)

Lemma after_colon_last a b : ~ In 58 b -> after_colon (a ++ 58 :: b) = b.
Proof.
  intro N. assert (E : existsb (Z.eqb 58) b = false).
  { destruct (existsb (Z.eqb 58) b) eqn:E; [|reflexivity]. apply existsb_exists in E as (x & I & X). apply Z.eqb_eq in X. subst. contradiction. }
  induction a as [|c a IH]; cbn [app after_colon].
  - rewrite E. reflexivity.
  - assert (X : existsb (Z.eqb 58) (a ++ 58 :: b) = true) by (rewrite existsb_app; cbn; apply orb_true_r).
    rewrite X, andb_false_r. exact IH.
Qed.

Lemma strip_gt_number z : strip_gt (32 :: str_of_Z z ++ [62]) = str_of_Z z.
Proof.
  assert (D : forall s t : str, s <> [] -> Forall (fun c => c = 45 \/ 48 <= c <= 57) s -> drop_gt (s ++ t) = s ++ t).
  { intros [|c s] t N F; [congruence|]. inversion F; subst. cbn [app drop_gt]. replace ((c =? 32) || (c =? 62)) with false by lia. reflexivity. }
  pose proof (str_of_Z_chars z) as F.
  assert (N : str_of_Z z <> []).
  { destruct (C69_numerals z) as (W & _). unfold written in W. destruct (z <? 0); [destruct W as (t & -> & _); discriminate|apply W]. }
  unfold strip_gt. change (drop_gt (32 :: str_of_Z z ++ [62])) with (drop_gt (str_of_Z z ++ [62])). rewrite D by assumption.
  rewrite rev_app_distr. cbn [rev app]. change (drop_gt (62 :: rev (str_of_Z z))) with (drop_gt (rev (str_of_Z z))).
  specialize (D (rev (str_of_Z z)) []). rewrite app_nil_r in D. rewrite D.
  - apply rev_involutive.
  - intro X. apply N. rewrite <- (rev_involutive (str_of_Z z)), X. reflexivity.
  - apply Forall_rev. exact F.
Qed.

Lemma number_no_colon z : ~ In 58 (str_of_Z z).
Proof. intro I. pose proof (str_of_Z_chars z) as F. rewrite Forall_forall in F. specialize (F _ I). lia. Qed.

Lemma enum_number a z : existsb (Z.eqb 58) (a ++ lit ": " ++ str_of_Z z ++ lit ">") = true /\
  strip_gt (after_colon (a ++ lit ": " ++ str_of_Z z ++ lit ">")) = str_of_Z z.
Proof.
  change (a ++ lit ": " ++ str_of_Z z ++ lit ">") with (a ++ 58 :: (32 :: str_of_Z z ++ [62])). split.
  - rewrite existsb_app. cbn. apply orb_true_r.
  - rewrite after_colon_last; [apply strip_gt_number|]. intro I. destruct I as [I|I]; [discriminate|]. apply in_app_or in I.
    destruct I as [I|[I|[]]]; [exact (number_no_colon _ I)|discriminate].
Qed.

Lemma written_latin base z s : base <= 16 -> written base z s -> Forall (fun c => c <= 255) s.
Proof.
  intros B W. assert (N : forall n s, natural base n s -> Forall (fun c => c <= 255) s).
  { intros n t (_ & F & _). eapply Forall_impl; [|exact F]. cbv beta. intros; lia. }
  unfold written in W. destruct (z <? 0); [destruct W as (t & -> & W); constructor; [lia|exact (N _ _ W)]|exact (N _ _ W)].
Qed.

Lemma line_ok name value : Forall (fun c => c <= 255) name -> Forall (fun c => c <= 255) value ->
  forallb (fun c => c <=? 255) (lit "conf set " ++ name ++ lit " " ++ value ++ [CR; LF]) = true.
Proof.
  intros N V. rewrite !forallb_app. rewrite Forall_forall in N, V.
  assert (forallb (fun c => c <=? 255) name = true) as -> by (apply forallb_forall; intros c C; specialize (N c C); lia).
  assert (forallb (fun c => c <=? 255) value = true) as -> by (apply forallb_forall; intros c C; specialize (V c C); lia).
  reflexivity.
Qed.

Lemma rows_plain : forall it, (forall q, hex_at q it = false) -> forall p l tx sc hx ed kids, In (p, Item l tx sc hx ed kids) (rows it) -> hx = false.
Proof.
  fix IH 1. intros [label tx0 sc0 hx0 ed0 [|k ks]] H p l tx sc hx ed kids J.
  - destruct J as [J|[]]. injection J as _ _ _ _ <- _ _. exact (H []).
  - rewrite rows_kids in J. apply in_map_iff in J as ([q r] & E & J). injection E as <- ->.
    assert (G : forall ks', (forall i q, match nth_error ks' i with Some k => hex_at q k | None => false end = false) ->
       In (q, Item l tx sc hx ed kids) (rows_list ks') -> hx = false).
    { fix IHl 1. intros [|k' ks'] HK JK; [contradiction|]. cbn [rows_list] in JK. apply in_app_or in JK as [JK|JK].
      - refine (IH k' _ q l tx sc hx ed kids JK). intro q'. exact (HK O q').
      - refine (IHl ks' _ JK). intros i q'. exact (HK (S i) q'). }
    refine (G (k :: ks) _ J). intros i q'. exact (H (i :: q')).
Qed.

Section Commit.
Variable lower : str -> str.
Hypothesis lower_true : lower (lit "True") = lit "true".
Hypothesis lower_false : lower (lit "False") = lit "false".

(** The text shown for a value, entered again, sets the parameter to this value. *)
Theorem C69_commit : forall repr_other name t v b text,
  enc t v b -> leaf_ty t -> text_of repr_other t false v text ->
  Forall (fun c => c <= 255) name -> (forall s, meant t v text s -> Forall (fun c => c <= 255) s) ->
  exists s, meant t v text s /\
    config_item_changed lower false name text (Some t) = Ok (lit "conf set " ++ name ++ lit " " ++ s ++ [CR; LF]).
Proof.
  intros repr_other name t v b text E L T N M.
  assert (G : forall s, config_item_changed lower false name text (Some t) =
     (if forallb (fun c => c <=? 255) (lit "conf set " ++ name ++ lit " " ++ s ++ [CR; LF])
      then Ok (lit "conf set " ++ name ++ lit " " ++ s ++ [CR; LF]) else Raise UnicodeError) ->
     meant t v text s -> exists s, meant t v text s /\
       config_item_changed lower false name text (Some t) = Ok (lit "conf set " ++ name ++ lit " " ++ s ++ [CR; LF])).
  { intros s C X. exists s. split; [exact X|]. rewrite C, line_ok; [reflexivity|exact N|apply M; exact X]. }
  assert (ENUM : forall cls t' items, t = TEnum cls t' items -> exists o z, v = VEnum o z) by (intros; subst; inversion E; subst; eauto).
  assert (BOOL : t = TBool -> exists x, v = VBool x) by (intros ->; inversion E; subst; eauto).
  destruct (match t with TEnum _ _ _ | TBool => true | _ => false end) eqn:K.
  - destruct t; try discriminate.
    + destruct (BOOL eq_refl) as ([] & ->); cbn [text_of] in T; subst text; [apply (G (lit "1"))|apply (G (lit "0"))]; try reflexivity; unfold config_item_changed.
      * rewrite lower_true. reflexivity.
      * rewrite lower_false. reflexivity.
    + destruct (ENUM _ _ _ eq_refl) as (o & z & ->). apply (G (str_of_Z z)); [|apply C69_numerals].
      assert (X : exists a, text = a ++ lit ": " ++ str_of_Z z ++ lit ">").
      { destruct o as [n|]; cbn [text_of] in T; destruct T as (d & W & ->);
          (assert (d = str_of_Z z) as -> by (apply (C69_numerals_unique 10 z z); [lia|exact W|apply C69_numerals|reflexivity])).
        - exists (lit "<" ++ name0 ++ lit "." ++ n). rewrite <- !app_assoc. reflexivity.
        - exists (lit "<" ++ name0 ++ lit "." ++ str_of_Z z). rewrite <- !app_assoc. reflexivity. }
      destruct X as (a & ->). destruct (enum_number a z) as (X1 & X2). unfold config_item_changed. rewrite X1, X2. reflexivity.
  - apply (G text); [destruct t; try discriminate; reflexivity|]. destruct v; try reflexivity; cbn in *; try exact T.
    + destruct t; try discriminate; reflexivity.
    + destruct t; try discriminate; reflexivity.
Qed.

Definition single (x : list str * ty * option value) : Prop :=
  match snd x with Some v => leaf_ty (snd (fst x)) /\ exists b, enc (snd (fst x)) v b | None => True end.

Lemma single_below label l : Forall single l -> Forall single (below label l).
Proof. intro F. unfold below. rewrite Forall_map. eapply Forall_impl; [|exact F]. intros [[p t] v]. exact (fun x => x). Qed.

Lemma single_list t : (forall label v b, enc t v b -> Forall single (leaves label t v)) ->
  forall vs n b, enc_list t vs b -> Forall single (leaves_list t n vs).
Proof.
  intros G. induction vs as [|v vs IH]; intros n b E; [constructor|]. apply enc_list_cons in E as (b1 & b2 & E1 & E2).
  cbn [leaves_list]. apply Forall_app. split; [exact (G _ _ _ E1)|exact (IH _ _ E2)].
Qed.

Lemma single_all t : forall label v b, enc t v b -> Forall single (leaves label t v).
Proof.
  assert (ONE : forall label t v b, leaf_ty t -> enc t v b -> Forall single [([label], t, Some v)]).
  { intros. repeat constructor; [assumption|eexists; eassumption]. }
  assert (NONE : forall label t, Forall single [([label], t, None)]) by (intros; repeat constructor).
  induction t as [t L|f fs IH|nm t items IH|t IH|n t IH|t IH|ts IH] using ty_induction; intros label v b E.
  - destruct t; try contradiction; eapply ONE; try exact I; exact E.
  - apply enc_object in E as (vs & -> & E). destruct fs as [|f0 fs]; [apply NONE|].
    change (leaves label (TObject f (f0 :: fs)) (VTuple vs)) with (below label (leaves_fields (f0 :: fs) vs)). apply single_below.
    revert vs b E. induction IH as [|[i t] fs' H F IH']; intros vs b E; [destruct vs; constructor|].
    apply enc_fields_cons in E as (v & vs' & b1 & b2 & -> & E1 & E2). cbn [leaves_fields]. apply Forall_app. split; [exact (H _ _ _ E1)|exact (IH' _ _ E2)].
  - eapply ONE; [exact I|exact E].
  - apply enc_array in E as (vs & b' & -> & E). destruct vs as [|v0 vs]; [apply NONE|].
    change (leaves label (TArray t) (VList (v0 :: vs))) with (below label (leaves_list t 0 (v0 :: vs))). apply single_below. eapply single_list; eassumption.
  - apply enc_fixed in E as (vs & -> & _ & E). destruct vs as [|v0 vs]; [apply NONE|].
    change (leaves label (TFixedArray n t) (VList (v0 :: vs))) with (below label (leaves_list t 0 (v0 :: vs))). apply single_below. eapply single_list; eassumption.
  - eapply ONE; [exact I|exact E].
  - eapply ONE; [exact I|exact E].
Qed.

(** Entering the text of any row of the configuration again sets the parameter of this row to the
    value it has. *)
Theorem C69_config_sent : forall repr_other name t v bs bd, schema name t bs -> no_keyword t -> enc t v bd ->
  exists it, config_item repr_other name t v = (it, None) /\
    Forall2 (fun '(p, t, v) '(p', r) =>
       p' = p /\
       match v with
       | None => True
       | Some v =>
           Forall (fun c => c <= 255) (item_name p) -> (forall s, meant t v (text_in r) s -> Forall (fun c => c <= 255) s) ->
           exists s, meant t v (text_in r) s /\
             config_item_changed lower false (item_name p') (text_in r) (schema_in r) =
             Ok (lit "conf set " ++ item_name p ++ lit " " ++ s ++ [CR; LF])
       end) (leaves name t v) (rows it).
Proof.
  intros repr_other name t v bs bd S K E. pose proof (proj1 schema_distinct _ _ _ S) as D.
  destruct (good_all repr_other true t K D (add_schema_item true name t) v bd E (fresh_built _ _ _) (fresh_room _ _ _ _ _ E)) as (it & A & B & L & R & _ & HX).
  exists it. split; [exact A|]. rewrite fresh_label in R. pose proof (single_all t name v bd E) as SG.
  assert (PL : forall p l tx sc hx ed kids, In (p, Item l tx sc hx ed kids) (rows it) -> hx = false)
    by (apply rows_plain; intro q; rewrite HX; apply fresh_hex).
  clear -R SG PL lower_true lower_false. induction R as [|[[p t'] v'] [p' [l tx sc hx ed kids]] ls rs X R IH]; constructor.
  - destruct X as (-> & -> & X). split; [reflexivity|]. destruct v' as [v'|]; [|exact I]. intros N M. pose proof (Forall_inv SG) as (L & b & E').
    rewrite (PL p l tx (Some t') hx ed kids (or_introl eq_refl)) in X. cbn [text_in schema_in] in *.
    eapply C69_commit; try eassumption.
  - apply IH; [exact (Forall_inv_tail SG)|]. intros q l' tx' sc' hx' ed' kids' J. eapply PL. right. exact J.
Qed.

(** What the editor offers for an enum: every value once, under its first name, and the choice
    sets the parameter to this value.  For a boolean: False and True. *)
Theorem C69_offered : forall cls t items name, Forall (fun c => c <= 255) name ->
  exists options, offered (Some (TEnum cls t items)) = Some options /\
    (forall s, In s options -> exists n z d, first_name items z (Some n) /\ written 10 z d /\
       s = lit "<" ++ cls ++ lit "." ++ n ++ lit ": " ++ d ++ lit ">" /\
       config_item_changed lower false name s (Some (TEnum cls t items)) = Ok (lit "conf set " ++ name ++ lit " " ++ d ++ [CR; LF])) /\
    (forall z, In z (map snd items) -> exists s d, In s options /\ written 10 z d /\
       config_item_changed lower false name s (Some (TEnum cls t items)) = Ok (lit "conf set " ++ name ++ lit " " ++ d ++ [CR; LF])).
Proof.
  intros cls t items name N. eexists. split; [reflexivity|].
  assert (SEND : forall n z, config_item_changed lower false name (repr_enum cls (Some n) z) (Some (TEnum cls t items)) =
     Ok (lit "conf set " ++ name ++ lit " " ++ str_of_Z z ++ [CR; LF])).
  { intros n z. unfold config_item_changed, repr_enum.
    replace (lit "<" ++ cls ++ lit "." ++ n ++ lit ": " ++ str_of_Z z ++ lit ">") with ((lit "<" ++ cls ++ lit "." ++ n) ++ lit ": " ++ str_of_Z z ++ lit ">")
      by (rewrite <- !app_assoc; reflexivity).
    destruct (enum_number (lit "<" ++ cls ++ lit "." ++ n) z) as (X1 & X2). rewrite X1, X2. rewrite line_ok; [reflexivity|exact N|].
    eapply written_latin; [|apply C69_numerals]. lia. }
  assert (MEM : forall items seen n z, In (n, z) (members seen items) -> ~ In z seen /\ first_name items z (Some n)).
  { clear. induction items as [|[m y] items IH]; intros seen n z I; [contradiction|]. cbn [members] in I.
    destruct (existsb (Z.eqb y) seen) eqn:X.
    - destruct (IH seen n z I) as (A & l & r & -> & B). split; [exact A|]. exists ((m, y) :: l), r. split; [reflexivity|].
      intros [J|J]; [|contradiction]. cbn in J. subst. apply existsb_exists in X as (x & I2 & X). apply Z.eqb_eq in X. subst. contradiction.
    - destruct I as [I|I].
      + injection I as -> ->. split.
        * intro J. assert (existsb (Z.eqb z) seen = true) by (apply existsb_exists; exists z; split; [exact J|apply Z.eqb_refl]). congruence.
        * exists [], items. split; [reflexivity|]. intros [].
      + destruct (IH (y :: seen) n z I) as (A & l & r & -> & B). split; [intro J; apply A; right; exact J|].
        exists ((m, y) :: l), r. split; [reflexivity|]. intros [J|J]; [cbn in J; subst; apply A; left; reflexivity|contradiction]. }
  assert (COV : forall items seen z, In z (map snd items) -> ~ In z seen -> exists n, In (n, z) (members seen items)).
  { clear. induction items as [|[m y] items IH]; intros seen z I J; [contradiction|]. cbn [members]. destruct (existsb (Z.eqb y) seen) eqn:X.
    - destruct I as [I|I]; [|apply IH; assumption]. cbn in I. subst. apply existsb_exists in X as (x & I2 & X). apply Z.eqb_eq in X. subst. contradiction.
    - destruct (Z.eq_dec y z) as [->|D]; [exists m; left; reflexivity|]. destruct I as [I|I]; [cbn in I; congruence|].
      destruct (IH (y :: seen) z I) as (n & K); [intros [K|K]; congruence|]. exists n. right. exact K. }
  split.
  - intros s I. apply in_map_iff in I as ([n z] & <- & I). exists n, z, (str_of_Z z). split; [apply (MEM items [] n z I)|].
    split; [apply C69_numerals|]. split; [reflexivity|]. apply SEND.
  - intros z I. destruct (COV items [] z I (fun x => x)) as (n & J). exists (repr_enum cls (Some n) z), (str_of_Z z).
    split; [apply in_map_iff; exists (n, z); split; [reflexivity|exact J]|]. split; [apply C69_numerals|]. apply SEND.
Qed.

Theorem C69_offered_bool : forall name, Forall (fun c => c <= 255) name ->
  exists options, offered (Some TBool) = Some options /\
    (forall s, In s options -> exists b : bool, s = if b then lit "True" else lit "False") /\
    (forall b : bool, exists s, In s options /\
       config_item_changed lower false name s (Some TBool) = Ok (lit "conf set " ++ name ++ lit " " ++ (if b then lit "1" else lit "0") ++ [CR; LF])).
Proof.
  intros name N. eexists. split; [reflexivity|]. split.
  - intros s [<-|[<-|[]]]; [exists false|exists true]; reflexivity.
  - intros []; [exists (lit "True")|exists (lit "False")]; unfold config_item_changed; rewrite ?lower_true, ?lower_false.
    + split; [right; left; reflexivity|]. change (str_eqb (lit "true") (lit "true")) with true. cbv iota. rewrite line_ok; [reflexivity|exact N|repeat constructor; discriminate].
    + split; [left; reflexivity|]. change (str_eqb (lit "false") (lit "true")) with false. change (str_eqb (lit "false") (lit "false")) with true. cbv iota.
      rewrite line_ok; [reflexivity|exact N|repeat constructor; discriminate].
Qed.

(** Anything else the user enters is sent as it is, and nothing is sent while tview fills the
    tree. *)
Theorem C69_entered : forall name text schema,
  Forall (fun c => c <= 255) name -> Forall (fun c => c <= 255) text ->
  (forall cls t items, schema = Some (TEnum cls t items) -> ~ In 58 text) ->
  (schema = Some TBool -> lower text <> lit "true" /\ lower text <> lit "false") ->
  config_item_changed lower false name text schema = Ok (lit "conf set " ++ name ++ lit " " ++ text ++ [CR; LF]) /\
  config_item_changed lower true name text schema = Ok [].
Proof.
  intros name text sc N T E B. split; [|reflexivity].
  assert (X : config_item_changed lower false name text sc =
     (if forallb (fun c => c <=? 255) (lit "conf set " ++ name ++ lit " " ++ text ++ [CR; LF])
      then Ok (lit "conf set " ++ name ++ lit " " ++ text ++ [CR; LF]) else Raise UnicodeError)).
  { destruct sc as [[]|]; try reflexivity.
    - destruct (B eq_refl) as (B1 & B2). unfold config_item_changed.
      destruct (str_eqb (lower text) (lit "true")) eqn:X; [apply str_eqb_eq in X; contradiction|].
      destruct (str_eqb (lower text) (lit "false")) eqn:Y; [apply str_eqb_eq in Y; contradiction|]. reflexivity.
    - unfold config_item_changed. destruct (existsb (Z.eqb 58) text) eqn:X; [|reflexivity].
      apply existsb_exists in X as (x & I & X). apply Z.eqb_eq in X. subst. destruct (E _ _ _ eq_refl I). }
  rewrite X, line_ok by assumption. reflexivity.
Qed.

End Commit.

(** *** Names *)

Lemma until_dot a : forall b x y, ~ In 46 a -> ~ In 46 b -> a ++ 46 :: x = b ++ 46 :: y -> a = b /\ x = y.
Proof.
  induction a as [|c a IH]; intros [|d b] x y A B E; cbn in E.
  - injection E as ->. split; reflexivity.
  - injection E as <- _. destruct B. left. reflexivity.
  - injection E as -> _. destruct A. left. reflexivity.
  - injection E as -> E. destruct (IH b x y) as (-> & ->); [intro J; apply A; right; exact J|intro J; apply B; right; exact J|exact E|split; reflexivity].
Qed.

Definition dotless (p : list str) : Prop := p <> [] /\ Forall (fun l => ~ In 46 l) p.

Lemma item_name_cons l m p : item_name (l :: m :: p) = l ++ 46 :: item_name (m :: p).
Proof. reflexivity. Qed.

Lemma item_name_inj p : forall q, dotless p -> dotless q -> item_name p = item_name q -> p = q.
Proof.
  induction p as [|l p IH]; intros [|m q] (P & FP) (Q & FQ) E; [reflexivity|congruence|congruence|].
  inversion FP; subst. inversion FQ; subst.
  destruct p as [|l' p], q as [|m' q]; rewrite ?item_name_cons in E; cbn [item_name] in E.
  - congruence.
  - subst. destruct H1. apply in_or_app. right. left. reflexivity.
  - subst. destruct H3. apply in_or_app. right. left. reflexivity.
  - apply until_dot in E as (-> & E); [|assumption|assumption]. f_equal. apply IH; [split; [discriminate|assumption]|split; [discriminate|assumption]|exact E].
Qed.

Definition path_of (x : list str * ty * option value) : list str := fst (fst x).

Lemma below_path label l : map path_of (below label l) = map (cons label) (map path_of l).
Proof. unfold below. rewrite !map_map. apply map_ext. intros [[p t] v]. reflexivity. Qed.

(** Labels in a path, the paths of siblings. *)
Definition headed (S : str -> Prop) (ps : list (list str)) : Prop :=
  NoDup ps /\ Forall (fun p => exists l q, p = l :: q /\ S l /\ Forall (fun l => ~ In 46 l) q) ps.

Lemma headed_below label ps : ~ In 46 label -> headed (fun l => ~ In 46 l) ps -> headed (eq label) (map (cons label) ps).
Proof.
  intros D (N & F). split.
  - apply FinFun.Injective_map_NoDup; [|exact N]. intros a b E. injection E as ->. reflexivity.
  - rewrite Forall_map. eapply Forall_impl; [|exact F]. intros p (l & q & -> & L & Q). exists label, (l :: q). split; [reflexivity|]. split; [reflexivity|]. constructor; assumption.
Qed.

Lemma nodup_app A (a b : list A) : NoDup a -> NoDup b -> (forall x, In x a -> In x b -> False) -> NoDup (a ++ b).
Proof.
  intros Na Nb D. induction a as [|x a IH]; [exact Nb|]. inversion Na; subst. cbn. constructor.
  - intro J. apply in_app_or in J as [J|J]; [contradiction|]. apply (D x); [left; reflexivity|exact J].
  - apply IH; [assumption|]. intros y Y. apply D. right. exact Y.
Qed.

Lemma headed_app (S S' : str -> Prop) ps ps' : headed S ps -> headed S' ps' -> (forall l, S l -> S' l -> False) ->
  headed (fun l => S l \/ S' l) (ps ++ ps').
Proof.
  intros (N & F) (N' & F') D. split.
  - apply nodup_app; [exact N|exact N'|]. intros p P P'. rewrite Forall_forall in F, F'.
    destruct (F _ P) as (l & q & -> & L & _). destruct (F' _ P') as (l' & q' & E & L' & _). injection E as -> ->. exact (D _ L L').
  - apply Forall_app. split; [eapply Forall_impl; [|exact F]|eapply Forall_impl; [|exact F']]; intros p (l & q & -> & L & Q); exists l, q; auto.
Qed.

Lemma headed_weaken (S S' : str -> Prop) ps : (forall l, S l -> S' l) -> headed S ps -> headed S' ps.
Proof. intros W (N & F). split; [exact N|]. eapply Forall_impl; [|exact F]. intros p (l & q & -> & L & Q). exists l, q. auto. Qed.

Definition named (t : ty) : Prop := forall label v b, distinct_names t -> enc t v b -> ~ In 46 label ->
  headed (eq label) (map path_of (leaves label t v)).

Lemma headed_one label : headed (eq label) [[label]].
Proof. split; [repeat constructor; intros []|]. repeat constructor. exists label, []. repeat split; constructor. Qed.

Lemma number_no_dot z : ~ In 46 (str_of_Z z).
Proof. intro I. pose proof (str_of_Z_chars z) as F. rewrite Forall_forall in F. specialize (F _ I). lia. Qed.

Lemma named_fields fs : Forall (fun f => named (snd f)) fs -> distinct_fields fs -> NoDup (map (fun f => fi_name (fst f)) fs) ->
  forall vs b, enc_fields fs vs b ->
  headed (fun l => ~ In 46 l /\ In l (map (fun f => fi_name (fst f)) fs)) (map path_of (leaves_fields fs vs)).
Proof.
  induction fs as [|[i t] fs IH]; intros F D N vs b E.
  - apply enc_fields_nil in E as ->. split; constructor.
  - apply enc_fields_cons in E as (v & vs' & b1 & b2 & -> & E1 & E2). inversion F; subst. inversion N; subst. destruct D as (D1 & D2 & D3).
    cbn [leaves_fields]. rewrite map_app. eapply headed_weaken; [|eapply headed_app; [apply (H1 (fi_name i) v b1 D2 E1 D1)|apply (IH H2 D3 H4 _ _ E2)|]].
    + intros l [<-|(A & B)]; (split; [assumption|]); [left; reflexivity|right; assumption].
    + intros l <- (_ & B). contradiction.
Qed.

Lemma named_list t : named t -> distinct_names t -> forall vs n b, enc_list t vs b ->
  headed (fun l => ~ In 46 l /\ exists m, (n <= m)%nat /\ l = str_of_Z (Z.of_nat m)) (map path_of (leaves_list t n vs)).
Proof.
  intros G D. induction vs as [|v vs IH]; intros n b E; [split; constructor|].
  apply enc_list_cons in E as (b1 & b2 & E1 & E2). cbn [leaves_list]. rewrite map_app.
  eapply headed_weaken; [|eapply headed_app; [apply (G (str_of_Z (Z.of_nat n)) v b1 D E1 (number_no_dot _))|apply (IH (S n) _ E2)|]].
  - intros l [<-|(A & m & M & ->)]; (split; [apply number_no_dot|]); [exists n; split; [lia|reflexivity]|exists m; split; [lia|reflexivity]].
  - intros l <- (_ & m & M & X). apply str_of_Z_inj in X. lia.
Qed.

Lemma named_all t : named t.
Proof.
  induction t as [t L|f fs IH|nm t items IH|t IH|n t IH|t IH|ts IH] using ty_induction; intros label v b D E N.
  - destruct t; try contradiction; apply headed_one.
  - apply enc_object in E as (vs & -> & E). destruct fs as [|f0 fs]; [apply headed_one|].
    change (leaves label (TObject f (f0 :: fs)) (VTuple vs)) with (below label (leaves_fields (f0 :: fs) vs)). rewrite below_path. apply headed_below; [exact N|].
    destruct D as (D1 & D2). eapply headed_weaken; [|eapply named_fields; eassumption]. intros l (A & _). exact A.
  - apply headed_one.
  - apply enc_array in E as (vs & b' & -> & E). destruct vs as [|v0 vs]; [apply headed_one|].
    change (leaves label (TArray t) (VList (v0 :: vs))) with (below label (leaves_list t 0 (v0 :: vs))). rewrite below_path. apply headed_below; [exact N|].
    eapply headed_weaken; [|eapply named_list; eassumption]. intros l (A & _). exact A.
  - apply enc_fixed in E as (vs & -> & _ & E). destruct vs as [|v0 vs]; [apply headed_one|].
    change (leaves label (TFixedArray n t) (VList (v0 :: vs))) with (below label (leaves_list t 0 (v0 :: vs))). rewrite below_path. apply headed_below; [exact N|].
    eapply headed_weaken; [|eapply named_list; eassumption]. intros l (A & _). exact A.
  - apply headed_one.
  - apply headed_one.
Qed.

(** A name is the labels, with dots between them. *)
Theorem C69_dotted : forall l ls, item_name (l :: ls) = l ++ flat_map (fun m => lit "." ++ m) ls.
Proof.
  intros l ls. revert l. induction ls as [|m ls IH]; intro l; [cbn; rewrite app_nil_r; reflexivity|].
  rewrite item_name_cons, IH. reflexivity.
Qed.

(** No two values in the tree of the configuration have the same name, so that an edit is to one
    parameter. *)
Theorem C69_names : forall elements : list (str * ty * value),
  NoDup (map (fun '(name, _, _) => name) elements) ->
  Forall (fun '(name, t, v) => ~ In 46 name /\ (exists bs, schema name t bs) /\ exists b, enc t v b) elements ->
  NoDup (map (fun '(p, _, _) => item_name p) (flat_map (fun '(name, t, v) => leaves name t v) elements)).
Proof.
  intros elements N F.
  assert (H : headed (fun l => ~ In 46 l /\ In l (map (fun '(name, _, _) => name) elements))
     (map path_of (flat_map (fun '(name, t, v) => leaves name t v) elements))).
  { induction elements as [|[[name t] v] elements IH]; [split; constructor|].
    inversion N; subst. pose proof (Forall_inv F) as (D & (bs & S) & (b & E)). pose proof (Forall_inv_tail F) as F'. cbn [flat_map]. rewrite map_app.
    eapply headed_weaken; [|eapply headed_app; [apply (named_all t name v b (proj1 schema_distinct _ _ _ S) E D)|apply (IH H2 F')|]].
    - intros l [<-|(A & B)]; (split; [assumption|]); [left; reflexivity|right; assumption].
    - intros l <- (_ & B). contradiction. }
  destruct H as (H & G).
  assert (X : map (fun '(p, _, _) => item_name p) (flat_map (fun '(name, t, v) => leaves name t v) elements) =
     map item_name (map path_of (flat_map (fun '(name, t, v) => leaves name t v) elements))).
  { rewrite map_map. apply map_ext. intros [[p t] v]. reflexivity. }
  rewrite X. clear X. remember (map path_of _) as ps. clear Heqps N F. induction H as [|p ps P H IH]; [constructor|].
  assert (DL : forall q, In q (p :: ps) -> dotless q).
  { intros q Q. rewrite Forall_forall in G. destruct (G _ Q) as (l & r & -> & (A & _) & B). split; [discriminate|constructor; assumption]. }
  cbn [map]. constructor; [|apply IH; inversion G; assumption]. intro J. apply in_map_iff in J as (q & E & J).
  assert (q = p) as -> by (apply item_name_inj; [apply DL; right; exact J|apply DL; left; reflexivity|exact E]). contradiction.
Qed.

(** *** Controllers without schemas *)

Fixpoint at_path (p : list str) (it : item) : option item :=
  match p with
  | [] => Some it
  | l :: p => match find_label l (kids_of it) with Some k => at_path p k | None => None end
  end.
Definition looks (it : item) : str * bool * option ty := (text_in it, editable_of it, schema_in it).
Definition obs (p : list str) (it : item) := option_map looks (at_path p it).
Definition empty_item (l : str) : item := Item l [] None false false [].
Definition add_kids (this : str) (next_key : list str) (value : str) : list item -> list item :=
  fix go kids := match kids with
                 | [] => [add_config next_key value (Item this [] None false false [])]
                 | kid :: kids => if str_eqb (label_of kid) this then add_config next_key value kid :: kids else kid :: go kids
                 end.
Definition sound (k : list str) : Prop := k = [] \/ last k [] <> [].

Lemma add_config_cons this next_key value l tx sc hx ed kids : sound (this :: next_key) ->
  add_config (this :: next_key) value (Item l tx sc hx ed kids) = Item l tx sc hx ed (add_kids this next_key value kids).
Proof. intros [|S]; [discriminate|]. destruct this; [destruct next_key; [cbn in S; congruence|]|]; reflexivity. Qed.

Lemma add_config_label k value it : sound k -> label_of (add_config k value it) = label_of it.
Proof. intro S. destruct it, k as [|f k]; [reflexivity|]. rewrite add_config_cons by exact S. reflexivity. Qed.

Lemma sound_tail f k : sound (f :: k) -> sound k.
Proof. intros [|S]; [discriminate|]. destruct k; [left; reflexivity|right; exact S]. Qed.

Lemma find_added f k v l : sound k -> forall kids, find_label l (add_kids f k v kids) =
  if str_eqb f l then Some (add_config k v (match find_label f kids with Some x => x | None => empty_item f end)) else find_label l kids.
Proof.
  intros S. induction kids as [|kid kids IH].
  - cbn [add_kids find_label]. rewrite add_config_label by exact S. cbn [label_of]. destruct (str_eqb f l) eqn:E; reflexivity.
  - cbn [add_kids find_label]. destruct (str_eqb (label_of kid) f) eqn:E.
    + apply str_eqb_eq in E. subst f. cbn [find_label]. rewrite add_config_label by exact S.
      destruct (str_eqb (label_of kid) l) eqn:E2; reflexivity.
    + cbn [find_label]. destruct (str_eqb (label_of kid) l) eqn:E2; [|exact IH].
      destruct (str_eqb f l) eqn:E3; [|reflexivity]. apply str_eqb_eq in E2, E3. subst. rewrite str_eqb_refl in E. discriminate.
Qed.

Fixpoint is_prefix (p k : list str) : bool :=
  match p, k with
  | [], _ => true
  | l :: p, m :: k => str_eqb m l && is_prefix p k
  | _, _ => false
  end.
Definition key_dec := list_eq_dec (list_eq_dec Z.eq_dec).

Lemma obs_added v : forall k it p, sound k ->
  obs p (add_config k v it) =
  if key_dec p k then Some (v, true, match obs p it with Some (_, _, sc) => sc | None => None end)
  else match obs p it with
       | Some o => Some o
       | None => if is_prefix p k then Some ([], false, None) else None
       end.
Proof.
  induction k as [|f k IH]; intros [label tx sc hx ed kids] p S.
  - cbn [add_config]. destruct p as [|l p].
    + destruct (key_dec [] []) as [_|C]; [reflexivity|congruence].
    + destruct (key_dec (l :: p) []) as [C|_]; [discriminate|]. unfold obs. cbn [at_path kids_of is_prefix].
      destruct (option_map looks _); reflexivity.
  - rewrite add_config_cons by exact S. destruct p as [|l p].
    + destruct (key_dec [] (f :: k)) as [C|_]; [discriminate|reflexivity].
    + unfold obs. cbn [at_path kids_of]. rewrite find_added by (eapply sound_tail; exact S). cbn [is_prefix].
      destruct (str_eqb f l) eqn:E.
      * apply str_eqb_eq in E. subst l. change (option_map looks (at_path p ?x)) with (obs p x). rewrite (IH _ p (sound_tail _ _ S)).
        cbn [andb]. destruct (key_dec p k) as [->|NE].
        -- destruct (key_dec (f :: k) (f :: k)) as [_|C]; [|congruence]. destruct (find_label f kids); [reflexivity|].
           destruct k; reflexivity.
        -- destruct (key_dec (f :: p) (f :: k)) as [C|_]; [injection C as ->; congruence|]. destruct (find_label f kids); [reflexivity|].
           destruct p; reflexivity.
      * destruct (key_dec (l :: p) (f :: k)) as [C|_]; [injection C as -> ->; rewrite str_eqb_refl in E; discriminate|].
        cbn [andb]. destruct (find_label l kids); [|reflexivity]. destruct (option_map looks _); reflexivity.
Qed.

Lemma split1_word sep a b : ~ In sep a -> split1 sep (a ++ sep :: b) = Some (a, b).
Proof.
  induction a as [|c a IH]; intro N; cbn [app split1].
  - rewrite Z.eqb_refl. reflexivity.
  - destruct (c =? sep) eqn:E; [apply Z.eqb_eq in E; subst; destruct N; left; reflexivity|]. rewrite IH by (intro J; apply N; right; exact J). reflexivity.
Qed.

Lemma split_name p : dotless p -> split_on 46 (item_name p) = p.
Proof.
  intros (N & F). revert N. induction F as [|l p L F IH]; intro N; [destruct (N eq_refl)|]. destruct p as [|m p].
  - cbn [item_name]. clear -L. induction l as [|c l IH]; [reflexivity|]. cbn [split_on].
    destruct (c =? 46) eqn:E; [apply Z.eqb_eq in E; subst; destruct L; left; reflexivity|]. rewrite IH by (intro J; apply L; right; exact J). reflexivity.
  - rewrite item_name_cons. specialize (IH ltac:(discriminate)). clear -L IH. induction l as [|c l IHl]; cbn [app split_on].
    + change (46 =? 46) with true. cbv iota. f_equal. exact IH.
    + destruct (c =? 46) eqn:E; [apply Z.eqb_eq in E; subst; destruct L; left; reflexivity|]. rewrite IHl by (intro J; apply L; right; exact J). reflexivity.
Qed.

Lemma name_no_space p : Forall (fun l => ~ In 46 l /\ ~ In 32 l) p -> ~ In 32 (item_name p).
Proof.
  induction 1 as [|l p (_ & L) F IH]; [intros []|]. destruct p as [|m p]; [exact L|]. rewrite item_name_cons. intro J.
  apply in_app_or in J as [J|[J|J]]; [contradiction|discriminate|contradiction].
Qed.

Lemma line_added p v tree : good_key p ->
  add_config_line (config_line (p, v)) tree = Ok (kids_of (add_config p v (Item [] [] None false false tree))).
Proof.
  intros (L & F & E). destruct p as [|l [|m p]]; [cbn in L; lia|cbn in L; lia|]. unfold add_config_line, config_line. cbn [fst snd].
  change (item_name (l :: m :: p) ++ lit " " ++ v) with (item_name (l :: m :: p) ++ 32 :: v).
  rewrite split1_word by (apply name_no_space; exact F). rewrite item_name_cons. inversion F as [|? ? (D & _) F']; subst.
  rewrite split1_word by exact D. rewrite split_name by (split; [discriminate|]; eapply Forall_impl; [|exact F']; intros a (A & _); exact A).
  rewrite (add_config_cons l (m :: p)) by (right; exact E). reflexivity.
Qed.

Lemma last_value_app p ls q v : last_value p (ls ++ [(q, v)]) = if key_dec p q then Some v else last_value p ls.
Proof.
  induction ls as [|[r w] ls IH]; cbn [app last_value]; [unfold key_dec; reflexivity|]. rewrite IH. destruct (key_dec p q); [reflexivity|]. reflexivity.
Qed.

Lemma prefix_spec p : forall k, is_prefix p k = true <-> exists q, k = p ++ q.
Proof.
  induction p as [|l p IH]; intro k; [split; [intros _; exists k; reflexivity|reflexivity]|]. destruct k as [|m k]; cbn [is_prefix].
  - split; [discriminate|intros (q & X); discriminate].
  - rewrite andb_true_iff, str_eqb_eq, IH. split; [intros (-> & q & ->); exists q; reflexivity|intros (q & X); injection X as -> ->; split; [reflexivity|exists q; reflexivity]].
Qed.

Lemma item_at_path p tree : p <> [] -> item_at p tree = at_path p (Item [] [] None false false tree).
Proof.
  revert tree. induction p as [|l p IH]; intros tree N; [congruence|]. cbn [item_at at_path kids_of]. destruct p as [|m p].
  - destruct (find_label l tree); reflexivity.
  - destruct (find_label l tree) as [k|]; [|reflexivity]. rewrite IH by discriminate. destruct k. reflexivity.
Qed.

Lemma lines_app a : forall b tree, add_config_lines (a ++ b) tree = bind (add_config_lines a tree) (add_config_lines b).
Proof.
  induction a as [|l a IH]; intros b tree; [reflexivity|]. cbn [app add_config_lines]. destruct (add_config_line l tree); cbn [bind]; [apply IH|reflexivity].
Qed.

(** For a controller without schemas: the tree has an item for each line, with its value, and
    those above it; of several lines with the same key, the last counts.  Only the items of lines
    can be edited, and entering the value that is shown sends the line of the controller back. *)
Theorem C69_lines : forall ls, Forall (fun l => good_key (fst l)) ls ->
  exists tree, add_config_lines (map config_line ls) [] = Ok tree /\
    forall p, p <> [] ->
      match item_at p tree with
      | Some it =>
          (exists q v, In (p ++ q, v) ls) /\ schema_in it = None /\
          match last_value p ls with
          | Some v => text_in it = v /\ editable_of it = true /\
              (forall lower, Forall (fun c => c <= 255) (config_line (p, v)) ->
               config_item_changed lower false (item_name p) (text_in it) (schema_in it) = Ok (lit "conf set " ++ config_line (p, v) ++ [CR; LF]))
          | None => text_in it = [] /\ editable_of it = false
          end
      | None => forall q v, ~ In (p ++ q, v) ls
      end.
Proof.
  intros ls F.
  assert (H : exists tree, add_config_lines (map config_line ls) [] = Ok tree /\
    forall p, p <> [] ->
      match last_value p ls with
      | Some v => obs p (Item [] [] None false false tree) = Some (v, true, None)
      | None => obs p (Item [] [] None false false tree) = if existsb (fun l => is_prefix p (fst l)) ls then Some ([], false, None) else None
      end).
  { induction ls as [|[k v] ls IH] using rev_ind.
    - exists []. split; [reflexivity|]. intros [|l p] N; [congruence|]. reflexivity.
    - apply Forall_app in F as (F & G). inversion G as [|? ? K _]; subst. cbn [fst] in K. destruct (IH F) as (tree & R & O). clear IH.
      rewrite map_app, lines_app, R. cbn [bind map add_config_lines]. rewrite line_added by exact K. cbn [bind]. eexists. split; [reflexivity|].
      intros p N. specialize (O p N). rewrite last_value_app, existsb_app. cbn [existsb fst]. rewrite orb_false_r.
      assert (S : sound k) by (right; apply K). pose proof (obs_added v k (Item [] [] None false false tree) p S) as A.
      assert (B : obs p (Item [] [] None false false (kids_of (add_config k v (Item [] [] None false false tree)))) = obs p (add_config k v (Item [] [] None false false tree))).
      { destruct p; [congruence|]. reflexivity. }
      rewrite B, A. clear A B. destruct (key_dec p k) as [E|E].
      + destruct (last_value p ls); rewrite O; [reflexivity|]. destruct (existsb _ ls); reflexivity.
      + destruct (last_value p ls); rewrite O; [reflexivity|]. destruct (existsb _ ls); [reflexivity|]. reflexivity. }
  destruct H as (tree & R & O). exists tree. split; [exact R|]. intros p N. specialize (O p N). rewrite (item_at_path p tree N). unfold obs in O.
  assert (PRE : existsb (fun l => is_prefix p (fst l)) ls = true <-> exists q v, In (p ++ q, v) ls).
  { rewrite existsb_exists. split.
    - intros ([k v] & I & X). cbn in X. apply prefix_spec in X as (q & ->). eauto.
    - intros (q & v & I). exists (p ++ q, v). split; [exact I|]. apply prefix_spec. exists q. reflexivity. }
  assert (LAST : forall v, last_value p ls = Some v -> In (p, v) ls).
  { clear. induction ls as [|[q w] ls IH]; intros v E; [discriminate|]. cbn [last_value] in E. destruct (last_value p ls) as [u|]; [right; apply IH; exact E|].
    destruct (list_eq_dec (list_eq_dec Z.eq_dec) p q) as [->|]; [|discriminate]. injection E as ->. left. reflexivity. }
  destruct (last_value p ls) as [v|].
  - destruct (at_path p _) as [it|]; [|discriminate]. cbn in O. unfold looks in O. injection O as T E S.
    split; [exists [], v; rewrite app_nil_r; apply LAST; reflexivity|]. split; [exact S|]. split; [exact T|]. split; [exact E|].
    intros lower L. rewrite S, T. unfold config_item_changed. unfold config_line in *. cbn [fst snd] in *. rewrite <- !app_assoc in *.
    apply Forall_app in L as (L1 & L). apply Forall_app in L as (_ & L2). rewrite line_ok by assumption. reflexivity.
  - destruct (existsb _ ls) eqn:X.
    + destruct (at_path p _) as [it|]; [|discriminate]. cbn in O. unfold looks in O. injection O as T E S.
      split; [apply PRE; reflexivity|]. auto.
    + destruct (at_path p _) as [it|]; [discriminate|]. intros q v I. assert (false = true); [apply PRE; eauto|discriminate].
Qed.

(** ** The theorems apply *)

Definition ex_mode : ty := TEnum (lit "mode") (TUInt 1) [(lit "kStopped", 0); (lit "kFault", 1); (lit "kOff", 0)].
Definition ex_ty : ty := TObject 0
  [plain_field (lit "mode") ex_mode; plain_field (lit "on") TBool; plain_field (lit "gain") (TFixedArray 2 (TUInt 1))].
Definition ex_value (m : Z) (o : option str) (on : bool) (a b : Z) : value :=
  VTuple [(lit "mode", VEnum o m); (lit "on", VBool on); (lit "gain", VList [VInt a; VInt b])].

Example C69_ex_schema : (exists bs, schema (lit "motor") ex_ty bs) /\ no_keyword ex_ty /\ fixed_size ex_ty.
Proof.
  split; [|split].
  - eexists. apply s_object; [apply small_uint; lia|apply small_uint; lia| |].
    + apply small_field; try discriminate; [repeat split|repeat constructor; discriminate|cbn; lia| |].
      * apply s_enum; [apply small_uint; lia|apply s_uint; [apply small_uint; lia|left; reflexivity]|apply small_uint; cbn; lia| |discriminate| | |].
        -- repeat (apply ei_cons; [apply small_enc; lia|apply small_text; [repeat constructor; discriminate|cbn; lia]|]). apply ei_nil.
        -- cbn. repeat constructor; cbn; intros J; repeat (destruct J as [J|J]; [discriminate|]); exact J.
        -- repeat constructor; discriminate.
        -- cbn. intros J; repeat (destruct J as [J|J]; [discriminate|]); exact J.
      * apply small_field; try discriminate; [repeat split|repeat constructor; discriminate|cbn; lia|apply s_bool; apply small_uint; lia|].
        apply small_field; try discriminate; [repeat split|repeat constructor; discriminate|cbn; lia| |apply sf_nil].
        apply s_fixed_array; [apply small_uint; lia|apply small_uint; lia|apply s_uint; [apply small_uint; lia|left; reflexivity]].
    + cbn. repeat constructor; cbn; intros J; repeat (destruct J as [J|J]; [discriminate|]); exact J.
  - cbn. repeat split; intros J; repeat (destruct J as [J|J]; [discriminate|]); exact J.
  - cbn. repeat split.
Qed.

Example C69_ex_value : forall m o on a b, 0 <= m < 256 -> first_name [(lit "kStopped", 0); (lit "kFault", 1); (lit "kOff", 0)] m o ->
  0 <= a < 256 -> 0 <= b < 256 -> exists bs, enc ex_ty (ex_value m o on a b) bs.
Proof.
  intros m o on a b M O A B.
  assert (exists z, 0 <= z < 256 /\ on = negb (z =? 0)) as (z & Z & ->) by (destruct on; [exists 1|exists 0]; split; (reflexivity || lia)).
  eexists. apply e_object.
  change (lit "mode") with (attribute (lit "mode")). change (lit "on") with (attribute (lit "on")). change (lit "gain") with (attribute (lit "gain")).
  apply (ef_cons (fst (plain_field (lit "mode") ex_mode))); [discriminate|discriminate|apply e_enum; [apply small_enc; exact M|exact O]|].
  apply (ef_cons (fst (plain_field (lit "on") TBool))); [discriminate|discriminate|apply e_bool; exact Z|].
  apply (ef_cons (fst (plain_field (lit "gain") (TFixedArray 2 (TUInt 1))))); [discriminate|discriminate| |apply ef_nil].
  apply e_fixed_array; [reflexivity|]. repeat apply el_cons; try apply el_nil; apply small_enc; assumption.
Qed.

(** The tree of a configuration, and what entering each text again sends. *)
Example C69_ex_config :
  let lower := fun s : str => if str_eqb s (lit "True") then lit "true" else if str_eqb s (lit "False") then lit "false" else s in
  let '(it, e) := config_item (fun _ => []) (lit "motor") ex_ty (ex_value 1 (Some (lit "kFault")) true 200 7) in
  e = None /\
  map (fun '(p, Item _ tx sc _ ed _) => (item_name p, tx, ed)) (rows it) =
    [(lit "motor.mode", lit "<mode.kFault: 1>", true); (lit "motor.on", lit "True", true);
     (lit "motor.gain.0", lit "200", true); (lit "motor.gain.1", lit "7", true)] /\
  map (fun '(p, Item _ tx sc _ ed _) => config_item_changed lower false (item_name p) tx sc) (rows it) =
    [Ok (lit "conf set motor.mode 1" ++ [CR; LF]); Ok (lit "conf set motor.on 1" ++ [CR; LF]);
     Ok (lit "conf set motor.gain.0 200" ++ [CR; LF]); Ok (lit "conf set motor.gain.1 7" ++ [CR; LF])] /\
  offered (Some ex_mode) = Some [lit "<mode.kStopped: 0>"; lit "<mode.kFault: 1>"].
Proof. vm_compute. repeat split. Qed.

(** Two packets, and a change of the format between them. *)
Example C69_ex_telemetry :
  let '(it, errors) := tree_runs (fun _ => []) (lit "motor") ex_ty
    [TData (ex_value 1 (Some (lit "kFault")) true 200 7); TFormat [2; 0]%nat true; TData (ex_value 9 None false 255 16)] in
  errors = [] /\ map (fun '(p, Item _ tx _ _ _ _) => (p, tx)) (rows it) =
    [([lit "motor"; lit "mode"], lit "<mode.9: 9>"); ([lit "motor"; lit "on"], lit "False");
     ([lit "motor"; lit "gain"; lit "0"], lit "ff"); ([lit "motor"; lit "gain"; lit "1"], lit "16")].
Proof. vm_compute. repeat split. Qed.

Example C69_ex_lines :
  let ls := [([lit "id"; lit "id"], lit "1"); ([lit "motor"; lit "gain"; lit "0"], lit "2.5"); ([lit "motor"; lit "gain"; lit "1"], lit "3 x");
             ([lit "id"; lit "id"], lit "5")] in
  Forall (fun l => good_key (fst l)) ls /\
  match add_config_lines (map config_line ls) [] with
  | Ok tree => map (fun it => map (fun '(p, it) => (item_name p, text_in it)) (rows it)) tree =
      [[(lit "id.id", lit "5")]; [(lit "motor.gain.0", lit "2.5"); (lit "motor.gain.1", lit "3 x")]]
  | Raise _ => False
  end.
Proof.
  split; [|vm_compute; reflexivity].
  repeat constructor; try discriminate; cbn; intros J; repeat (destruct J as [J|J]; [discriminate|]); exact J.
Qed.

Print Assumptions C69_numerals.
Print Assumptions C69_numerals_unique.
Print Assumptions C69_config.
Print Assumptions C69_telemetry.
Print Assumptions C69_telemetry_fixed.
Print Assumptions C69_format.
Print Assumptions C69_shorter_refuted.
Print Assumptions C69_keyword_refuted.
Print Assumptions C69_commit.
Print Assumptions C69_config_sent.
Print Assumptions C69_offered.
Print Assumptions C69_offered_bool.
Print Assumptions C69_entered.
Print Assumptions C69_dotted.
Print Assumptions C69_names.
Print Assumptions C69_lines.
