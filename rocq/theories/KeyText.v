(* materialize.py:73-113: str(key), the text whose md5 digest is the cache key. *)
From Coq Require Import String Ascii DecimalString DecimalZ.
From Verif Require Import Base BaseFacts Util Lang Spec Graph Algo Kernel Sched Codegen CacheKey Text TextPrint TextParse TextLex TextName Print.
Open Scope string_scope.
Open Scope Z_scope.
Open Scope list_scope.

(* ------------------------------------------------------------------ Python objects and their texts *)
Inductive pyobj := PyStr (s : string) | PyInt (z : Z) | PyBool (b : bool) | PyNone | PyTup (l : list pyobj).
(* repr() of a str without quotes, backslashes and unprintable characters *)
Definition quoted (s : string) : string := "'" +++ s +++ "'".
(* str() of an object; strings are shown by repr inside a tuple *)
Fixpoint py_text (t : pyobj) : string :=
  match t with
  | PyStr s => quoted s
  | PyInt z => dec z
  | PyBool b => if b then "True" else "False"
  | PyNone => "None"
  | PyTup l => match l with [x] => "(" +++ py_text x +++ ",)" | _ => "(" +++ join ", " (map py_text l) +++ ")" end
  end.

(* ------------------------------------------------------------------ the key as a Python object *)
Definition ints (l : list Z) : pyobj := PyTup (map PyInt l).
(* materialize.py:79, 106: (name, extent) *)
Definition loop_obj (x : name * Z) : pyobj := PyTup [PyStr (pname (fst x)); PyInt (snd x)].
(* materialize.py:74-92 _expr_key *)
Fixpoint expr_obj (k : ekey) : pyobj :=
  match k with
  | KyBin b x y => PyTup [PyStr "Bin"; PyStr (bop_text b); expr_obj x; expr_obj y]
  | KyUn u x => PyTup [PyStr "Un"; PyStr (uop_text u); expr_obj x]
  | KyRed red x => PyTup [PyStr "Red"; PyStr "Sum"; PyTup (map loop_obj red); expr_obj x]
  | KyIdx n ext => PyTup [PyStr "Idx"; PyStr (pname n); PyInt ext]
  | KyConst z => PyTup [PyStr "Const"; PyInt z]
  | KyFnc x idx => PyTup [PyStr "Fnc"; expr_obj x; PyTup (map expr_obj idx)]
  | KyBuf i shape strides off dt idx =>
      PyTup [PyStr "Buf"; PyInt (Z.of_nat i); ints shape; ints strides; PyInt off; PyStr (dtype_text dt); PyTup (map expr_obj idx)]
  | KyNone => PyNone
  end.
(* materialize.py:94-103 _sched_key *)
Definition exec_obj (x : lexec) : pyobj :=
  match x with
  | XBlock a => PyTup [PyStr "GPUBlock"; PyStr (axis_text a)]
  | XThread a => PyTup [PyStr "GPUThread"; PyStr (axis_text a)]
  | XUnroll f => PyTup [PyStr "Unroll"; PyInt f]
  | XSeq => PyTup [PyStr "Sequential"]
  | XPar => PyTup [PyStr "Parallel"]
  | XVec => PyTup [PyStr "Vectorize"]
  end.
Definition sloop_obj (x : name * Z * lkind * lexec) : pyobj :=
  let '(n, ext, kind, ex) := x in PyTup [PyStr (pname n); PyInt ext; PyStr (kind_text kind); exec_obj ex].
Definition split_obj (x : name * Z * bool) : pyobj := let '(n, f, b) := x in PyTup [PyStr (pname n); PyInt f; PyBool b].
(* materialize.py:105-112 *)
Definition key_obj (k : kkey) : pyobj :=
  PyTup [PyTup (map loop_obj (ky_loops k)); ints (ky_shape k); PyStr (dtype_text (ky_dtype k)); expr_obj (ky_expr k);
         PyTup [PyTup (map sloop_obj (ky_sloops k)); PyTup (map split_obj (ky_splits k))]].
Definition key_text (k : kkey) : string := py_text (key_obj k).

(* ------------------------------------------------------------------ texts determine objects *)
Lemma pyobj_ind' (P : pyobj -> Prop) : (forall s, P (PyStr s)) -> (forall z, P (PyInt z)) -> (forall b, P (PyBool b)) -> P PyNone -> (forall l, Forall P l -> P (PyTup l)) -> forall t, P t.
Proof.
  intros H1 H2 H3 H4 H5. fix IH 1. intros [s|z|b| |l]; [apply H1|apply H2|apply H3|apply H4|]. apply H5. induction l; constructor; auto.
Qed.
Definition nquote (c : ascii) : bool := negb (Ascii.eqb c "'").
Fixpoint plain_obj (t : pyobj) : Prop :=
  match t with
  | PyStr s => all_chars nquote s = true
  | PyTup l => fold_right (fun x P => plain_obj x /\ P) True l
  | _ => True
  end.
Lemma plain_tup l : plain_obj (PyTup l) <-> Forall plain_obj l.
Proof.
  cbn [plain_obj]. induction l as [|x l IH]; cbn; [split; auto|]. rewrite IH. split; [intros [H1 H2]; constructor; auto|]. intros H. inversion H. auto.
Qed.
Definition int_char (c : ascii) : bool := is_digit c || Ascii.eqb c "-".
Lemma dec_chars z : all_chars int_char (dec z) = true.
Proof.
  assert (HP : forall p, all_chars int_char (dec (Zpos p)) = true).
  { intros p. assert (E : dec (Zpos p) = decn (Pos.to_nat p)) by (unfold decn; now rewrite positive_nat_Z). rewrite E. eapply all_imp; [|apply decn_digits].
    intros c H. unfold int_char. now rewrite H. }
  destruct z as [|p|p]; [reflexivity|apply HP|]. rewrite dec_neg, all_chars_app, HP. reflexivity.
Qed.
Lemma dec_inj x y : dec x = dec y -> x = y.
Proof.
  unfold dec. intros H. assert (E : Some (Z.to_int x) = Some (Z.to_int y)) by (rewrite <- !NilEmpty.isi; now rewrite H). injection E as E.
  rewrite <- (of_to x), <- (of_to y). now rewrite E.
Qed.
Lemma dec_head z r : exists c s, (dec z +++ r = String c s)%string /\ int_char c = true.
Proof.
  assert (HN : dec z <> ""). { intros H. assert (E := dec_chars z). unfold dec in H. assert (X := NilEmpty.isi (Z.to_int z)). rewrite H in X. destruct z; cbn in *; try discriminate.
    - injection X as X. destruct (Pos.to_uint p) eqn:U; [|discriminate..]. pose proof (DecimalPos.Unsigned.to_uint_nonnil p). congruence. }
  pose proof (dec_chars z) as H. destruct (dec z) as [|c s]; [congruence|]. cbn in H. apply andb_prop in H as [H _]. exists c, (s +++ r). auto.
Qed.
(* a maximal run of characters of one class *)
Definition off_class (p : ascii -> bool) (s : string) : Prop := match s with EmptyString => True | String c _ => p c = false end.
Lemma class_split p s1 : forall s2 r1 r2, all_chars p s1 = true -> all_chars p s2 = true -> off_class p r1 -> off_class p r2 -> (s1 +++ r1 = s2 +++ r2)%string -> s1 = s2 /\ r1 = r2.
Proof.
  induction s1 as [|c s1 IH]; intros s2 r1 r2 H1 H2 S1 S2 HE.
  - destruct s2 as [|d s2]; [auto|]. cbn in HE. subst r1. cbn in S1, H2. rewrite S1 in H2. discriminate.
  - destruct s2 as [|d s2].
    + cbn in HE. subst r2. cbn in S2, H1. rewrite S2 in H1. discriminate.
    + cbn in HE. injection HE as <- HE. cbn in H1, H2. apply andb_prop in H1 as [_ H1]. apply andb_prop in H2 as [_ H2].
      destruct (IH s2 r1 r2 H1 H2 S1 S2 HE) as [-> ->]. auto.
Qed.
(* what follows an element: nothing, a comma or a closing parenthesis *)
Definition ends (s : string) : Prop := match s with EmptyString => True | String c _ => c = ","%char \/ c = ")"%char end.
Lemma ends_int s : ends s -> off_class int_char s.
Proof. destruct s; cbn; auto. intros [->| ->]; reflexivity. Qed.
Lemma app_assoc_s a b c : ((a +++ b) +++ c = a +++ b +++ c)%string.
Proof. induction a; cbn; congruence. Qed.
(* the text of a tuple after its opening parenthesis: elements, then the end *)
Fixpoint more (l : list pyobj) (r : string) : string := match l with [] => ")" +++ r | x :: l' => ", " +++ py_text x +++ more l' r end.
Definition items (l : list pyobj) (r : string) : string :=
  match l with [] => ")" +++ r | [x] => py_text x +++ ",)" +++ r | x :: l' => py_text x +++ more l' r end.
Lemma join_more l x r : (join ", " (map py_text (x :: l)) +++ ")" +++ r = py_text x +++ more l r)%string.
Proof.
  revert x. induction l as [|y l IH]; intros x; [reflexivity|]. change (join ", " (map py_text (x :: y :: l))) with (py_text x +++ ", " +++ join ", " (map py_text (y :: l))).
  rewrite !app_assoc_s. rewrite IH. reflexivity.
Qed.
Lemma tup_text l r : (py_text (PyTup l) +++ r = String "(" (items l r))%string.
Proof.
  destruct l as [|x [|y l]]; [reflexivity| |].
  - cbn [py_text items]. cbn [String.append]. now rewrite !app_assoc_s.
  - change (py_text (PyTup (x :: y :: l))) with ("(" +++ join ", " (map py_text (x :: y :: l)) +++ ")"). cbn [String.append]. f_equal. rewrite app_assoc_s, join_more. reflexivity.
Qed.
Lemma more_ends l r : ends (more l r).
Proof. destruct l; cbn; auto. Qed.
Definition kind_of_head (c : ascii) : nat :=
  if Ascii.eqb c "'" then 0 else if int_char c then 1 else if Ascii.eqb c "T" then 2 else if Ascii.eqb c "F" then 3 else if Ascii.eqb c "N" then 4 else if Ascii.eqb c "(" then 5 else 6.
Definition head_kind (t : pyobj) : nat := match t with PyStr _ => 0 | PyInt _ => 1 | PyBool true => 2 | PyBool false => 3 | PyNone => 4 | PyTup _ => 5 end.
Lemma head_text t r : exists c s, (py_text t +++ r = String c s)%string /\ kind_of_head c = head_kind t.
Proof.
  destruct t as [s|z|[|]| |l]; try (eexists _, _; split; reflexivity).
  - destruct (dec_head z r) as (c & s & H & Hc). exists c, s. split; [exact H|]. unfold kind_of_head. destruct (Ascii.eqb_spec c "'"); [subst; discriminate|]. now rewrite Hc.
  - rewrite tup_text. eexists _, _. split; reflexivity.
Qed.
Lemma text_inj t1 : forall t2 r1 r2, plain_obj t1 -> plain_obj t2 -> ends r1 -> ends r2 -> (py_text t1 +++ r1 = py_text t2 +++ r2)%string -> t1 = t2 /\ r1 = r2.
Proof.
  induction t1 as [s|z|b| |l IH] using pyobj_ind'; intros t2 r1 r2 P1 P2 S1 S2 HE.
  all: assert (HK : head_kind t2 = head_kind t2) by reflexivity.
  all: match goal with |- ?t1 = _ /\ _ => destruct (head_text t1 r1) as (c1 & q1 & E1 & K1); destruct (head_text t2 r2) as (c2 & q2 & E2 & K2);
    rewrite HE, E2 in E1; injection E1 as <- <-; rewrite K1 in K2; cbn [head_kind] in K2 end.
  - destruct t2 as [s2|z2|[|]| |l2]; try discriminate K2. cbn [py_text quoted] in HE. unfold quoted in HE. cbn [String.append] in HE. injection HE as HE. rewrite !app_assoc_s in HE.
    apply class_split with (p := nquote) in HE; auto; try reflexivity. destruct HE as [-> HE]. cbn [String.append] in HE. injection HE as ->. auto.
  - destruct t2 as [s2|z2|[|]| |l2]; try discriminate K2. cbn [py_text] in HE. apply class_split with (p := int_char) in HE; auto using dec_chars, ends_int.
    destruct HE as [HD ->]. apply dec_inj in HD. subst. auto.
  - destruct t2 as [s2|z2|b2| |l2], b; try discriminate K2; destruct b2; try discriminate K2; cbn in HE; injection HE as ->; auto.
  - destruct t2 as [s2|z2|[|]| |l2]; try discriminate K2. cbn in HE. injection HE as ->. auto.
  - destruct t2 as [s2|z2|[|]| |l2]; try discriminate K2. rewrite !tup_text in HE. injection HE as HE. rewrite plain_tup in P1, P2. clear K1 K2 E2 HK.
    assert (NC : forall t q r, (py_text t +++ q = ")" +++ r)%string -> False).
    { intros t q r H. destruct (head_text t q) as (c & s & E & K). rewrite H in E. cbn in E. injection E as <- <-. destruct t as [| |[|]| |]; discriminate K. }
    assert (GM : forall l2, Forall plain_obj l -> Forall plain_obj l2 -> more l r1 = more l2 r2 -> l = l2 /\ r1 = r2).
    { clear l2 P1 P2 HE. induction IH as [|x l Hx _ IHl]; intros l2 P1 P2 HE.
      - destruct l2 as [|y l2]; [cbn in HE; injection HE as ->; auto|discriminate].
      - destruct l2 as [|y l2]; [discriminate|]. inversion_clear P1 as [|? ? Px Pl]. inversion_clear P2 as [|? ? Py Pm]. cbn in HE. injection HE as HE.
        destruct (Hx y _ _ Px Py (more_ends _ _) (more_ends _ _) HE) as [-> HR]. destruct (IHl _ Pl Pm HR) as [-> ->]. auto. }
    destruct IH as [|x l Hx IHl].
    + destruct l2 as [|y [|z l2]]; cbn [items] in HE; [injection HE as ->; auto|exfalso; symmetry in HE; exact (NC _ _ _ HE)|exfalso; symmetry in HE; exact (NC _ _ _ HE)].
    + inversion_clear P1 as [|? ? Px Pl].
      assert (HI : forall w m r, items (w :: m) r = py_text w +++ match m with [] => ",)" +++ r | _ => more m r end) by (intros w [|? ?] r; reflexivity).
      destruct l2 as [|y l2]; [exfalso; rewrite HI in HE; exact (NC _ _ _ HE)|]. inversion_clear P2 as [|? ? Py Pm]. rewrite !HI in HE.
      assert (HT : forall m r, ends (match m with [] => ",)" +++ r | _ => more m r end)) by (intros [|? ?] r; cbn; auto).
      destruct (Hx y _ _ Px Py (HT _ _) (HT _ _) HE) as [-> HR].
      destruct l as [|u l], l2 as [|v l2].
      * cbn in HR. injection HR as ->. auto.
      * cbn in HR. discriminate.
      * cbn in HR. discriminate.
      * destruct (GM (y :: v :: l2)) as [HL ->]; [constructor; auto|constructor; auto|cbn [more] in *; now rewrite HR|]. split; congruence.
Qed.

(* ------------------------------------------------------------------ objects determine keys *)
Lemma map_inj {A B} (f : A -> B) l : Forall (fun x => forall y, f x = f y -> x = y) l -> forall m, map f l = map f m -> l = m.
Proof. induction 1 as [|x l Hx _ IH]; intros [|y m] H; try discriminate; auto. cbn in H. injection H as H1 H2. f_equal; auto. Qed.
Lemma map_inj' {A B} (f : A -> B) : (forall x y, f x = f y -> x = y) -> forall l m, map f l = map f m -> l = m.
Proof. intros H l. apply map_inj. rewrite Forall_forall. auto. Qed.
Lemma ints_inj l m : ints l = ints m -> l = m.
Proof. intros H. injection H as H. revert H. apply map_inj'. congruence. Qed.
Lemma loop_obj_inj x y : loop_obj x = loop_obj y -> x = y.
Proof. destruct x, y. intros H. injection H as H1 H2. apply pname_inj in H1. cbn in *. congruence. Qed.
Lemma bop_text_inj a b : bop_text a = bop_text b -> a = b.
Proof. destruct a, b; cbn; congruence. Qed.
Lemma uop_text_inj a b : uop_text a = uop_text b -> a = b.
Proof. destruct a, b; cbn; congruence. Qed.
Lemma dtype_text_inj a b : dtype_text a = dtype_text b -> a = b.
Proof. destruct a, b; cbn; congruence. Qed.
Lemma ekey_ind' (P : ekey -> Prop) : (forall b l r, P l -> P r -> P (KyBin b l r)) -> (forall u x, P x -> P (KyUn u x)) -> (forall red x, P x -> P (KyRed red x)) ->
  (forall n e, P (KyIdx n e)) -> (forall z, P (KyConst z)) -> (forall x idx, P x -> Forall P idx -> P (KyFnc x idx)) ->
  (forall i s st o d idx, Forall P idx -> P (KyBuf i s st o d idx)) -> P KyNone -> forall k, P k.
Proof.
  intros H1 H2 H3 H4 H5 H6 H7 H8. fix IH 1. intros [b l r|u x|red x|n e|z|x idx|i s st o d idx|]; [now apply H1|now apply H2|now apply H3|apply H4|apply H5| | |exact H8].
  - apply H6; auto. induction idx; constructor; auto.
  - apply H7. induction idx; constructor; auto.
Qed.
Lemma expr_obj_inj k1 : forall k2, expr_obj k1 = expr_obj k2 -> k1 = k2.
Proof.
  induction k1 using ekey_ind'; intros [| | | | | | |] HE; cbn [expr_obj] in HE; try discriminate HE; auto.
  - injection HE as H1 H2 H3. apply bop_text_inj in H1. f_equal; auto.
  - injection HE as H1 H2. apply uop_text_inj in H1. f_equal; auto.
  - injection HE as H1 H2. apply (map_inj' _ loop_obj_inj) in H1. f_equal; auto.
  - injection HE as H1 H2. apply pname_inj in H1. congruence.
  - injection HE as ->. auto.
  - injection HE as H1 H2. apply map_inj in H2; [|assumption]. f_equal; auto.
  - injection HE as H1 H2 H3 H4 H5 H6. apply map_inj in H6; [|assumption]. apply dtype_text_inj in H5. apply Nat2Z.inj in H1.
    apply (map_inj' PyInt) in H2; [|congruence]. apply (map_inj' PyInt) in H3; [|congruence]. congruence.
Qed.
Lemma axis_text_inj a b : axis_text a = axis_text b -> a = b.
Proof. destruct a, b; cbn; congruence. Qed.
Lemma exec_obj_inj a b : exec_obj a = exec_obj b -> a = b.
Proof. destruct a, b; cbn [exec_obj]; try congruence; intros H; injection H as H; try (now apply axis_text_inj in H; subst); congruence. Qed.
Lemma sloop_obj_inj a b : sloop_obj a = sloop_obj b -> a = b.
Proof.
  destruct a as [[[n e] k] x], b as [[[n' e'] k'] x']. intros H. injection H as H1 H2 H3 H4. apply pname_inj in H1. apply exec_obj_inj in H4.
  assert (k = k') by (destruct k, k'; try discriminate; auto). congruence.
Qed.
Lemma split_obj_inj a b : split_obj a = split_obj b -> a = b.
Proof. destruct a as [[n e] k], b as [[n' e'] k']. intros H. injection H as H1 H2 H3. apply pname_inj in H1. congruence. Qed.
Lemma key_obj_inj a b : key_obj a = key_obj b -> a = b.
Proof.
  destruct a, b. unfold key_obj. cbn. intros H. injection H as H1 H2 H3 H4 H5 H6. apply (map_inj' _ loop_obj_inj) in H1. apply (map_inj' PyInt) in H2; [|congruence].
  apply dtype_text_inj in H3. apply expr_obj_inj in H4. apply (map_inj' _ sloop_obj_inj) in H5. apply (map_inj' _ split_obj_inj) in H6. congruence.
Qed.
(* the strings of a key are quoted as they are *)
Lemma pname_noquote n : all_chars nquote (pname n) = true.
Proof.
  pose proof (pname_ident n) as H. destruct (pname n) as [|c s]; [discriminate|]. cbn in H |- *. apply andb_prop in H as [H1 H2]. apply andb_true_intro. split.
  - unfold nquote. destruct (Ascii.eqb_spec c "'"); [subst; discriminate|auto].
  - eapply all_imp; [|exact H2]. intros d Hd. unfold nquote. destruct (Ascii.eqb_spec d "'"); [subst; discriminate|auto].
Qed.
Lemma plain_map {A} (f : A -> pyobj) l : (forall x, plain_obj (f x)) -> plain_obj (PyTup (map f l)).
Proof. intros H. apply plain_tup. rewrite Forall_map, Forall_forall. auto. Qed.
Lemma plain_loop x : plain_obj (loop_obj x).
Proof. destruct x. cbn. auto using pname_noquote. Qed.
Lemma plain_dtype d : all_chars nquote (dtype_text d) = true.
Proof. now destruct d. Qed.
Lemma plain_ints l : plain_obj (ints l).
Proof. apply plain_map. exact (fun _ => I). Qed.
Lemma plain_expr k : plain_obj (expr_obj k).
Proof.
  induction k using ekey_ind'; cbn [expr_obj]; rewrite ?plain_tup; repeat apply Forall_cons; try apply Forall_nil; auto using plain_ints, pname_noquote; try reflexivity; try exact I.
  - now destruct b.
  - now destruct u.
  - apply plain_map. apply plain_loop.
  - apply pname_noquote.
  - apply plain_tup. rewrite Forall_map. assumption.
  - apply plain_dtype.
  - apply plain_tup. rewrite Forall_map. assumption.
Qed.
Lemma plain_key k : plain_obj (key_obj k).
Proof.
  unfold key_obj. rewrite plain_tup. repeat apply Forall_cons; try apply Forall_nil; auto using plain_ints, plain_expr.
  - apply plain_map, plain_loop.
  - apply plain_dtype.
  - rewrite plain_tup. repeat apply Forall_cons; try apply Forall_nil; apply plain_map.
    + intros [[[n e] k0] x]. cbn. repeat split; auto using pname_noquote; try (now destruct k0). destruct x as [| | |?|[]|[]]; cbn; auto.
    + intros [[n e] b]. cbn. auto using pname_noquote.
Qed.
Theorem key_text_inj a b : key_text a = key_text b -> a = b.
Proof.
  unfold key_text. intros H. apply key_obj_inj. apply (text_inj (key_obj a) (key_obj b) "" ""); auto using plain_key; try exact I. now rewrite H.
Qed.
