(* Cache keys, schedules and generated kernels of a copy. *)
From Verif Require Import Base BaseFacts Util UtilFacts Lang Spec Graph Api Algo Kernel Sched Codegen CacheKey Runtime Copy CopyConv.

Section Rename.
Context (r : nat -> nat) (Hinj : forall n m, r n = r m -> n = m).
Context (g1 g2 : graph) (D : nat -> Prop)
  (HD : forall n, D n -> exists x y, nth_error g1 n = Some x /\ nth_error g2 (r n) = Some y /\ same_node r x y /\ Forall D (n_in x)).
Notation rne := (rne r).
Notation rnl := (rnl r).
Notation rnf := (rnf r).
Notation De := (De D).

Lemma npos_rn x l : npos (r x) (map r l) = npos x l.
Proof using Hinj. induction l as [|y l IH]; cbn; auto. rewrite (reqb r Hinj). destruct (Nat.eqb y x); auto. now rewrite IH. Qed.
Lemma nadd_rn x l : nadd (r x) (map r l) = map r (nadd x l).
Proof using Hinj. unfold nadd. rewrite npos_rn. destruct (npos x l); auto. now rewrite map_app. Qed.

(* the index list of a reference *)
Fixpoint key_many (g : graph) (E : fenv) (fuel : nat) (l : list expr) (ids : list nat) : outcome (list ekey * list nat) :=
  match l with
  | [] => Done ([], ids)
  | x :: l' => '(k, ids1) <~ expr_key g E fuel x ids ;; '(ks, ids2) <~ key_many g E fuel l' ids1 ;; Done (k :: ks, ids2)
  end.
Lemma ek_bin g E n b x y ids : expr_key g E n (EBin b x y) ids = obind (expr_key g E n x ids) (fun '(k1, ids1) => obind (expr_key g E n y ids1) (fun '(k2, ids2) => Done (KyBin b k1 k2, ids2))).
Proof. destruct n; reflexivity. Qed.
Lemma ek_un g E n u x ids : expr_key g E n (EUn u x) ids = obind (expr_key g E n x ids) (fun '(k1, ids1) => Done (KyUn u k1, ids1)).
Proof. destruct n; reflexivity. Qed.
Lemma ek_sum g E n x red ids : expr_key g E n (ESum x red) ids = obind (expr_key g E n x ids) (fun '(k1, ids1) => Done (KyRed (map (fun l => (lname l, l_ext l)) red) k1, ids1)).
Proof. destruct n; reflexivity. Qed.
Lemma ek_func g E n f idx ids : expr_key g E n (EFunc f idx) ids =
  match n with O => Throw InternalErr | S k => obind (throw_none InternalErr (E f)) (fun fd => obind (expr_key g E k (f_expr fd) ids) (fun '(k1, ids1) => obind (key_many g E n idx ids1) (fun '(ks, ids2) => Done (KyFnc k1 ks, ids2)))) end.
Proof.
  destruct n; [reflexivity|]. cbn [expr_key]. destruct (throw_none InternalErr (E f)) as [fd|]; cbn [obind]; auto.
  destruct (expr_key g E n (f_expr fd) ids) as [[k1 ids1]|]; cbn [obind]; auto.
  match goal with |- obind ?a _ = obind ?b _ => assert (HM : a = b) end; [|now rewrite HM].
  revert ids1. induction idx as [|x l IH]; intros; auto. cbn [key_many expr_key]. apply bind_ext. intros [k i]. now rewrite IH.
Qed.
Lemma ek_buf g E n b idx ids : expr_key g E n (EBuf b idx) ids =
  obind (get g b) (fun nd => obind (key_many g E n idx (nadd b ids)) (fun '(ks, ids2) => obind (throw_none InternalErr (npos b (nadd b ids))) (fun i => Done (KyBuf i (n_shape nd) (n_strides nd) (n_offset nd) (n_dtype nd) ks, ids2)))).
Proof.
  destruct n; cbn [expr_key]; apply bind_ext; intros nd;
  (match goal with |- obind ?a _ = obind ?b _ => assert (HM : a = b) end; [|now rewrite HM]);
  generalize (nadd b ids); induction idx as [|x l IH]; intros; auto; cbn [key_many expr_key]; apply bind_ext; intros [k i]; now rewrite IH.
Qed.

Lemma expr_key_rn E E' : Erel r D E E' -> EDe D E -> forall k m e ids ky ids1, (k <= m)%nat -> De e -> expr_key g1 E k e ids = Done (ky, ids1) ->
  expr_key g2 E' m (rne e) (map r ids) = Done (ky, map r ids1).
Proof using Hinj HD.
  intros HE HDe.
  assert (MANY : forall k m idx, Forall (fun e => forall ids ky ids1, De e -> expr_key g1 E k e ids = Done (ky, ids1) -> expr_key g2 E' m (rne e) (map r ids) = Done (ky, map r ids1)) idx ->
     Forall De idx -> forall ids kys ids1, key_many g1 E k idx ids = Done (kys, ids1) -> key_many g2 E' m (map rne idx) (map r ids) = Done (kys, map r ids1)).
  { intros k m. induction idx as [|x l IH]; intros HF HDl ids kys ids1 HX; cbn [key_many map] in *; [injection HX as <- <-; reflexivity|].
    inversion HF as [|? ? HFx HFl]; subst. inversion HDl as [|? ? HDx HDl']; subst. destruct (expr_key g1 E k x ids) as [[k1 i1]|] eqn:X1; cbn [obind] in HX; [|discriminate]. rewrite (HFx _ _ _ HDx X1). cbn [obind].
    destruct (key_many g1 E k l i1) as [[k2 i2]|] eqn:X2; cbn [obind] in HX; [|discriminate]. rewrite (IH HFl HDl' _ _ _ X2). cbn [obind]. now injection HX as <- <-. }
  assert (FA : forall (P : expr -> Prop) (Q : expr -> Prop) l, Forall (fun e => Q e -> P e) l -> Forall Q l -> Forall P l).
  { intros P Q l H1 H2. rewrite Forall_forall in *. auto. }
  induction k as [|k IHk]; intros m e; induction e using expr_rect'; intros ids ky ids1 Hm He HX; cbn [CopyConv.rne];
    rewrite ?ek_bin, ?ek_un, ?ek_sum, ?ek_func, ?ek_buf in *; cbn [CopyConv.De] in He.
  all: try (destruct m; cbn in *; injection HX as <- <-; reflexivity).
  all: try discriminate.
  all: try (destruct He as [He1 He2]; destruct (expr_key g1 E _ e1 ids) as [[k1 i1]|] eqn:X1; cbn [obind] in HX; [|discriminate]; rewrite (IHe1 _ _ _ Hm He1 X1); cbn [obind];
     destruct (expr_key g1 E _ e2 i1) as [[k2 i2]|] eqn:X2; cbn [obind] in HX; [|discriminate]; rewrite (IHe2 _ _ _ Hm He2 X2); cbn [obind]; now injection HX as <- <-).
  all: try (destruct (expr_key g1 E _ e ids) as [[k1 i1]|] eqn:X1; cbn [obind] in HX; [|discriminate]; rewrite (IHe _ _ _ Hm He X1); cbn [obind]; injection HX as <- <-; rewrite ?map_map; reflexivity).
  all: destruct He as [Df Di]; apply De_all in Di.
  all: try (match type of H with Forall _ _ => idtac end;
     assert (HF : Forall (fun e => forall ids ky ids1, De e -> expr_key g1 E _ e ids = Done (ky, ids1) -> expr_key g2 E' m (rne e) (map r ids) = Done (ky, map r ids1)) idx)
       by (rewrite Forall_forall in *; intros x0 Hx0 i0 y0 i1 Dx0 Y0; exact (H x0 Hx0 i0 y0 i1 Hm Dx0 Y0))).
  all: try (destruct (get_rn r g1 g2 D HD n Df) as (x & y & G1 & G2 & (S1 & S2 & S3 & S4 & _) & _); rewrite G1 in HX; rewrite G2; cbn [obind] in *; rewrite nadd_rn, npos_rn;
     destruct (key_many g1 E _ idx (nadd n ids)) as [[k1 i1]|] eqn:X1; cbn [obind] in HX; [|discriminate]; rewrite (MANY _ m idx HF Di _ _ _ X1); cbn [obind];
     destruct (npos n (nadd n ids)); cbn [throw_none obind] in *; [|discriminate]; injection HX as <- <-; rewrite S1, S2, S3, S4; reflexivity).
  destruct m as [|m]; [lia|]. rewrite (HE f Df). destruct (E f) as [fd|] eqn:Ef; cbn [throw_none option_map obind] in *; [|discriminate].
  destruct (expr_key g1 E k (f_expr fd) ids) as [[k1 i1]|] eqn:X1; cbn [obind] in HX; [|discriminate]. cbn [CopyConv.rnf f_expr].
  rewrite (IHk m (f_expr fd) ids k1 i1 ltac:(lia) (HDe _ _ Ef) X1). cbn [obind].
  destruct (key_many g1 E (S k) idx i1) as [[k2 i2]|] eqn:X2; cbn [obind] in HX; [|discriminate]. rewrite (MANY _ _ idx HF Di _ _ _ X2). cbn [obind]. now injection HX as <- <-.
Qed.

(* ---- schedules *)
Lemma reduced_vars_rn e : reduced_vars (rne e) = map rnl (reduced_vars e).
Proof. induction e; cbn; rewrite ?map_app; try congruence; auto. Qed.
Lemma sched_init_rn fd : sched_init (rnf fd) = sched_init fd.
Proof. unfold sched_init. cbn. rewrite reduced_vars_rn, !map_map. reflexivity. Qed.
Lemma auto_schedule_rn b fd : auto_schedule b (rnf fd) = auto_schedule b fd.
Proof. unfold auto_schedule. now rewrite sched_init_rn. Qed.

(* ---- kernels *)
Definition rna (a : arg) : arg := match a with ABuf n => ABuf (r n) | AFnc n => AFnc (r n) end.
Definition Da (a : arg) : Prop := match a with ABuf n | AFnc n => D n end.
Lemma func_args_rn e : func_args (rne e) = map rna (func_args e).
Proof using Hinj HD.
  unfold func_args. rewrite buf_refs_rn, func_refs_rn. pose proof (fun l => dedup_rn r Hinj g1 g2 D HD l []) as HX. cbn [map] in HX. rewrite !HX.
  rewrite map_app, !map_map. reflexivity.
Qed.
Lemma func_args_D e : De e -> Forall Da (func_args e).
Proof.
  intros He. unfold func_args. pose proof (func_refs_D D e He) as H1. pose proof (buf_refs_D D e He) as H2. rewrite Forall_forall in *.
  intros a Ha. apply in_app_or in Ha as [Ha|Ha]; apply in_map_iff in Ha as (n & <- & Hn); cbn; [apply H2|apply H1]; eapply dedup_In; eauto.
Qed.
Lemma arg_pos_rn a l : arg_pos (rna a) (map rna l) = arg_pos a l.
Proof using Hinj.
  induction l as [|x l IH]; cbn; auto. assert (HE : arg_eqb (rna x) (rna a) = arg_eqb x a) by (destruct x, a; cbn; auto; apply (reqb r Hinj)).
  rewrite HE, IH. reflexivity.
Qed.
Lemma arg_name_rn args a : arg_name (map rna args) (rna a) = arg_name args a.
Proof using Hinj. unfold arg_name. rewrite arg_pos_rn. destruct a; reflexivity. Qed.

Section Env.
Context (E E' : fenv) (HE : Erel r D E E') (HDe : EDe D E).
Lemma arg_params_rn l : Forall Da l -> forall i, arg_params g2 E' (map rna l) i = arg_params g1 E l i.
Proof using HD HE.
  induction 1 as [|a l Ha Hl IH]; intros i; cbn [arg_params map]; auto. rewrite IH.
  assert (HA : arg_dtype g2 E' (rna a) = arg_dtype g1 E a).
  { destruct a as [n|f]; cbn in *.
    - destruct (get_rn r g1 g2 D HD n Ha) as (x & y & -> & -> & (S1 & _) & _). cbn. now rewrite S1.
    - rewrite (HE f Ha). destruct (E f); reflexivity. }
  rewrite HA. destruct a; reflexivity.
Qed.
Lemma render_rn args e : De e -> forall dt k, render g2 E' (map rna args) (rne e) dt k = render g1 E args e dt k.
Proof using Hinj HD HE HDe.
  induction e using expr_rect'; intros He dt k; cbn [CopyConv.rne render CopyConv.De] in *; auto.
  - destruct He. rewrite IHe1 by auto. apply bind_ext. intros [[c1 v1] k1]. rewrite IHe2 by auto. reflexivity.
  - rewrite IHe by auto. reflexivity.
  - destruct He as (? & ? & ?). rewrite IHe1 by auto. apply bind_ext. intros [[c1 v1] k1]. rewrite IHe2 by auto. apply bind_ext. intros [[c2 v2] k2]. rewrite IHe3 by auto. reflexivity.
  - rewrite IHe by auto. apply bind_ext. intros [[c v] k1]. do 3 f_equal. f_equal. induction red as [|l red IH]; cbn; auto. now rewrite IH.
  - destruct He as [Df Di]. change (AFnc (r f)) with (rna (AFnc f)). rewrite arg_name_rn. apply bind_ext. intros nm. rewrite (HE f Df).
    destruct (E f) as [fd|]; cbn [throw_none option_map obind CopyConv.rnf f_shape]; auto.
    match goal with |- obind ?a _ = obind ?b _ => assert (HM : a = b) end; [|now rewrite HM].
    clear Df. revert k. induction idx as [|x l IH]; intros k; auto. inversion H; subst. destruct Di. cbn [map]. rewrite H2 by auto. apply bind_ext. intros [[c v] k1]. rewrite IH by auto. reflexivity.
  - destruct He as [Df Di]. change (ABuf (r n)) with (rna (ABuf n)). rewrite arg_name_rn. apply bind_ext. intros nm.
    destruct (get_rn r g1 g2 D HD n Df) as (x & y & -> & -> & (S1 & S2 & S3 & S4 & _) & _). cbn [obind]. rewrite S3, S4.
    match goal with |- obind ?a _ = obind ?b _ => assert (HM : a = b) end; [|now rewrite HM].
    clear Df. revert k. induction idx as [|z l IH]; intros k; auto. inversion H; subst. destruct Di. cbn [map]. rewrite H2 by auto. apply bind_ext. intros [[c v] k1]. rewrite IH by auto. reflexivity.
Qed.
Lemma codegen_rn fd sc k : De (f_expr fd) ->
  codegen g2 E' (func_args (f_expr (rnf fd))) (rnf fd) sc k = codegen g1 E (func_args (f_expr fd)) fd sc k.
Proof using Hinj HD HE HDe.
  intros He. unfold codegen. cbn [CopyConv.rnf f_expr f_dtype f_shape f_loops]. rewrite func_args_rn, (arg_params_rn _ (func_args_D _ He)), (render_rn _ _ He).
  apply bind_ext. intros ps. apply bind_ext. intros [[c v] k1]. rewrite !map_map. reflexivity.
Qed.
Lemma cache_key_rn fd sc key : De (f_expr fd) -> (length g1 <= length g2)%nat -> cache_key g1 E fd sc = Done key -> cache_key g2 E' (rnf fd) sc = Done key.
Proof using Hinj HD HE HDe.
  intros He Hl HX. unfold cache_key in *. destruct (expr_key g1 E (S (length g1)) (f_expr fd) []) as [[ky ids]|] eqn:X; cbn [obind] in HX; [|discriminate].
  cbn [CopyConv.rnf f_expr]. pose proof (expr_key_rn E E' HE HDe (S (length g1)) (S (length g2)) _ [] ky ids ltac:(lia) He X) as HY. cbn [map] in HY. rewrite HY. cbn [obind]. injection HX as <-.
  cbn. rewrite map_map. reflexivity.
Qed.
End Env.
End Rename.
