(* Python's recursion limit in the second half of materialize(): func_cache_key() and the code generator again, with the number L of
   frames left on Python's stack (see Stack.v for how frames are counted).  The generator is an object (Generator.v): what it has
   written, its indentation and its counter stay when RecursionError is raised. *)
From Coq Require Import String Ascii.
From Verif Require Import Base BaseFacts Util Lang Spec Graph Algo AlgoSem Kernel Sched Codegen Backends CacheKey CopyKey Stack Text TextPrint TextParse Generator.
Open Scope string_scope.
Open Scope Z_scope.
Open Scope list_scope.

(* ------------------------------------------------------------------ func_cache_key *)
(* materialize.py:74-92 _expr_key: one frame a level; a tuple(... for ...) runs in a frame of its own *)
Section Key.
Context (g : graph) (E : fenv).
Definition keys_l (f : expr -> list nat -> lim (ekey * list nat)) : list expr -> list nat -> lim (list ekey * list nat) :=
  fix go l ids := match l with
  | [] => Some (Done ([], ids))
  | x :: l' => lbind (f x ids) (fun '(k, ids1) => lbind (go l' ids1) (fun '(ks, ids2) => Some (Done (k :: ks, ids2))))
  end.
Fixpoint expr_key_l (L : nat) (e : expr) (ids : list nat) : lim (ekey * list nat) :=
  match L with
  | O => None
  | S k =>
      let tuple (l : list expr) (ids : list nat) := match k with O => None | S k' => keys_l (expr_key_l k') l ids end in
      match e with
      | EBin b x y => lbind (expr_key_l k x ids) (fun '(k1, ids1) => lbind (expr_key_l k y ids1) (fun '(k2, ids2) => Some (Done (KyBin b k1 k2, ids2))))
      | EUn u x => lbind (expr_key_l k x ids) (fun '(k1, ids1) => Some (Done (KyUn u k1, ids1)))
      | ESum x red => lbind (expr_key_l k x ids) (fun '(k1, ids1) => Some (Done (KyRed (map (fun l => (lname l, l_ext l)) red) k1, ids1)))
      | EIdx l => Some (Done (KyIdx (lname l) (l_ext l), ids))
      | EConst z => Some (Done (KyConst z, ids))
      | EFunc f idx =>
          lbind (Some (throw_none InternalErr (E f))) (fun fd =>
          lbind (expr_key_l k (f_expr fd) ids) (fun '(k1, ids1) =>
          lbind (tuple idx ids1) (fun '(ks, ids2) => Some (Done (KyFnc k1 ks, ids2)))))
      | EBuf n idx =>
          lbind (Some (get g n)) (fun nd =>
          let ids1 := nadd n ids in
          lbind (tuple idx ids1) (fun '(ks, ids2) =>
          lbind (Some (throw_none InternalErr (npos n ids1))) (fun i =>
          Some (Done (KyBuf i (n_shape nd) (n_strides nd) (n_offset nd) (n_dtype nd) ks, ids2)))))
      | EWhere _ _ _ => Some (Done (KyNone, ids))
      end
  end.
End Key.

(* ------------------------------------------------------------------ the code generator *)
Definition lmeth (A : Type) : Type := ob -> ob * lim A.
Definition up {A} (m : meth A) : lmeth A := fun o => let (o1, x) := m o in (o1, Some x).
Definition out_of_frames {A} : lmeth A := fun o => (o, None).
Definition lseq {A B} (m : lmeth A) (f : A -> lmeth B) : lmeth B := fun o =>
  match m o with (o1, Some (Done x)) => f x o1 | (o1, Some (Throw e)) => (o1, Some (Throw e)) | (o1, None) => (o1, None) end.
Notation "x <# m ;; f" := (lseq m (fun x => f)) (at level 61, m at next level, right associativity).
Notation "m #; f" := (lseq m (fun _ => f)) (at level 61, right associativity).
Definition lmany {A B} (f : A -> lmeth B) : list A -> lmeth (list B) :=
  fix go l := match l with [] => up (ret []) | x :: l' => v <# f x ;; vs <# go l' ;; up (ret (v :: vs)) end.
Section Obj.
Context (b : backend) (g : graph) (E : fenv).
(* codegen.py:121-254: render_expr is one frame, render_unary etc. another *)
Fixpoint o_render_l (L : nat) (args : list (string * arg)) (e : expr) (dt : dtype) : lmeth string :=
  match L with
  | O => out_of_frames
  | S k0 =>
      match e with
      | EIdx l => up (ret (pname (lname l)))
      | EConst z => up (ret (dec z))
      | _ =>
          match k0 with
          | O => out_of_frames
          | S k =>
              match e with
              | EUn u x => r <# o_render_l k args x dt ;; up (tmp <! o_tmpvar ;; o_write [init b dt tmp (t_un b u r)] !; ret tmp)
              | EBin o x y =>
                  l <# o_render_l k args x dt ;; r <# o_render_l k args y dt ;; up (tmp <! o_tmpvar ;; o_write [init b dt tmp (t_bin b o l r)] !; ret tmp)
              | EWhere c t f =>
                  tmp <# up o_tmpvar ;; up (o_write [init b dt tmp (if is_int dt then "0" else "0.0")]) #;
                  cond <# o_render_l k args c Int64 ;;
                  up (o_write [if_start b cond]) #; up o_nest #;
                  tv <# o_render_l k args t dt ;; up (o_write [assign b tmp tv]) #; up o_unnest #;
                  up (o_write [else_ b]) #; up o_nest #;
                  fv <# o_render_l k args f dt ;; up (o_write [assign b tmp fv] !; o_unnest !; o_write [if_end b] !; ret tmp)
              | ESum x red =>
                  up (o_write [init b dt "acc" "0"]) #;
                  up (each (fun l => o_write [sequential_loop_start b (pname (lname l)) "0" (dec (l_ext l)) "1"] !; o_nest) red) #;
                  r <# o_render_l k args x dt ;;
                  up (o_write [assign b "acc" (t_bin b BAdd "acc" r)] !; each (fun _ => o_unnest !; o_write [loop_end b]) red !; ret "acc")
              | EBuf n idx =>
                  buf <# up (lift (throw_none InternalErr (find_arg (ABuf n) args))) ;; nd <# up (lift (get g n)) ;;
                  names <# lmany (fun x => o_render_l k args x Int64) idx ;;
                  up (let terms := map (fun '(x, st) => t_bin b BMul x (dec st)) (filter (fun '(_, st) => negb (st =? 0)) (combine names (n_strides nd))) in
                      let flat := match terms with [] => dec (n_offset nd) | _ => reduce_add b (dec (n_offset nd) :: terms) end in
                      ret (index buf flat))
              | EFunc f idx =>
                  fnc <# up (lift (throw_none InternalErr (find_arg (AFnc f) args))) ;; fd <# up (lift (throw_none InternalErr (E f))) ;;
                  names <# lmany (fun x => o_render_l k args x Int64) idx ;;
                  up (ret (index fnc (arr_idx_calc_expr b (f_shape fd) names)))
              | EIdx _ | EConst _ => out_of_frames
              end
          end
      end
  end.
(* codegen.py:43-79; L frames are left below codegen() *)
Definition o_codegen_l (L : nat) (kname : string) (inputs : list arg) (f : func) (sc : schedule) : lmeth string :=
  up (fun o => (mkOb [] (ob_ind o) (ob_tmp o), Done tt)) #;
  up (o_write (map (import_lib b) (default_library b))) #;
  let args := named_args inputs 0 in
  ts <# up (lift (arg_types g E inputs)) ;;
  up (o_write [kern_start b kname ("out" :: map fst args) (f_dtype f :: ts)]) #; up o_nest #;
  cnt <# up (o_loops b (s_loops sc)) ;;
  up (o_splits b (s_splits sc)) #; up (o_guards b (s_splits sc)) #;
  result <# o_render_l L args (f_expr f) (f_dtype f) ;;
  up (let idx := arr_idx_calc_expr b (f_shape f) (map (fun l => pname (lname l)) (f_loops f)) in
      o_write [assign b (index "out" idx) result] !;
      o_loop_finish b cnt !; o_unnest !; o_write [kern_end b] !;
      (fun o => (o, Done (join nl (ob_buf o))))).
End Obj.
Definition answer_l (L : nat) (b : backend) (q : request) : lmeth string := o_codegen_l b (q_graph q) (q_env q) L (q_name q) (q_inputs q) (q_func q) (q_sched q).
(* the life of one generator object when the n-th request has its own number of frames *)
Fixpoint session_l (b : backend) (qs : list (nat * request)) (o : ob) : ob * list (lim string) :=
  match qs with [] => (o, []) | (L, q) :: r => let (o1, x) := answer_l L b q o in let (o2, xs) := session_l b r o1 in (o2, x :: xs) end.


(* ------------------------------------------------------------------ facts: keys *)
Section KeyFacts.
Context (g : graph) (E : fenv).
Lemma keys_agree L fuel l : Forall (fun x => forall ids v, expr_key g E fuel x ids = Done v -> forall L r, expr_key_l g E L x ids = Some r -> r = Done v) l ->
  forall ids v, key_many g E fuel l ids = Done v -> forall r, keys_l (expr_key_l g E L) l ids = Some r -> r = Done v.
Proof.
  induction 1 as [|x l Hx _ IH]; intros ids v H r H1; cbn [keys_l key_many] in *; [congruence|].
  destruct (expr_key g E fuel x ids) as [[k1 ids1]|] eqn:Eh; [|discriminate]. cbn [obind] in H. destruct (expr_key_l g E L x ids) as [fx|] eqn:Ef; [|discriminate].
  rewrite (Hx _ _ Eh _ _ Ef) in H1. cbn [lbind] in H1. destruct (key_many g E fuel l ids1) as [[ks ids2]|] eqn:Em; [|discriminate]. cbn [obind] in H.
  destruct (keys_l (expr_key_l g E L) l ids1) as [fl|] eqn:El; [|discriminate]. rewrite (IH _ _ Em _ El) in H1. cbn [lbind] in H1. congruence.
Qed.
(* with too few frames RecursionError, otherwise the key *)
Lemma key_agree fuel : forall e ids v, expr_key g E fuel e ids = Done v -> forall L r, expr_key_l g E L e ids = Some r -> r = Done v.
Proof.
  induction fuel as [|k IHk]; intros e; induction e using expr_ind'; intros ids v Hv L r HL; (destruct L as [|L]; [discriminate|]); rewrite ?ek_bin, ?ek_un, ?ek_sum, ?ek_func, ?ek_buf in Hv; cbn [expr_key_l] in HL.
  all: try (cbn in Hv; congruence).
  all: try discriminate.
  all: try (destruct (expr_key g E _ e1 ids) as [[k1 ids1]|] eqn:X1; [|discriminate]; cbn [obind] in Hv; destruct (expr_key_l g E L e1 ids) as [r1|] eqn:Y1; [|discriminate];
    rewrite (IHe1 _ _ X1 _ _ Y1) in HL; cbn [lbind] in HL; destruct (expr_key g E _ e2 ids1) as [[k2 ids2]|] eqn:X2; [|discriminate]; cbn [obind] in Hv;
    destruct (expr_key_l g E L e2 ids1) as [r2|] eqn:Y2; [|discriminate]; rewrite (IHe2 _ _ X2 _ _ Y2) in HL; cbn [lbind] in HL; congruence).
  all: try (destruct (expr_key g E _ e ids) as [[k1 ids1]|] eqn:X1; [|discriminate]; cbn [obind] in Hv; destruct (expr_key_l g E L e ids) as [r1|] eqn:Y1; [|discriminate];
    rewrite (IHe _ _ X1 _ _ Y1) in HL; cbn [lbind] in HL; congruence).
  all: try (destruct (get g n) as [nd|]; [|discriminate]; cbn [obind lbind] in *; destruct (key_many g E _ idx (nadd n ids)) as [[ks ids2]|] eqn:X; [|discriminate]; cbn [obind] in Hv;
    (destruct L as [|L]; [discriminate|]); destruct (keys_l (expr_key_l g E L) idx (nadd n ids)) as [r1|] eqn:Y; [|discriminate];
    rewrite (keys_agree _ _ _ H _ _ X _ Y) in HL; cbn [lbind] in HL; 
    destruct (throw_none InternalErr (npos n (nadd n ids))); [|discriminate]; cbn [obind lbind] in *; congruence).
  destruct (throw_none InternalErr (E f)) as [fd|]; [|discriminate]; cbn [obind lbind] in *. destruct (expr_key g E k (f_expr fd) ids) as [[k1 ids1]|] eqn:X1; [|discriminate]. cbn [obind] in Hv.
  destruct (expr_key_l g E L (f_expr fd) ids) as [r1|] eqn:Y1; [|discriminate]. rewrite (IHk _ _ _ X1 _ _ Y1) in HL. cbn [lbind] in HL.
  destruct (key_many g E _ idx ids1) as [[ks ids2]|] eqn:X; [|discriminate]; cbn [obind] in Hv. destruct L as [|L]; [discriminate|].
  destruct (keys_l (expr_key_l g E L) idx ids1) as [r2|] eqn:Y; [|discriminate].
  rewrite (keys_agree _ _ _ H _ _ X _ Y) in HL. cbn [lbind] in HL. congruence.
Qed.
(* and some number of frames is enough *)
Lemma keys_ev fuel l : Forall (fun x => forall ids v, expr_key g E fuel x ids = Done v -> exists L0, forall L, (L0 <= L)%nat -> expr_key_l g E L x ids = Some (Done v)) l ->
  forall ids v, key_many g E fuel l ids = Done v -> exists L0, forall L, (L0 <= L)%nat -> keys_l (expr_key_l g E L) l ids = Some (Done v).
Proof.
  induction 1 as [|x l Hx _ IH]; intros ids v H; cbn [keys_l key_many] in *; [exists 0%nat; intros; congruence|].
  destruct (expr_key g E fuel x ids) as [[k1 ids1]|] eqn:Eh; [|discriminate]. cbn [obind] in H. destruct (key_many g E fuel l ids1) as [[ks ids2]|] eqn:Em; [|discriminate]. cbn [obind] in H.
  destruct (Hx _ _ Eh) as (a & Ha). destruct (IH _ _ Em) as (c & Hc). exists (a + c)%nat. intros L HL. rewrite Ha by lia. cbn [lbind]. rewrite Hc by lia. cbn [lbind]. congruence.
Qed.
Lemma key_ev fuel : forall e ids v, expr_key g E fuel e ids = Done v -> exists L0, forall L, (L0 <= L)%nat -> expr_key_l g E L e ids = Some (Done v).
Proof.
  induction fuel as [|k IHk]; intros e; induction e using expr_ind'; intros ids v Hv; rewrite ?ek_bin, ?ek_un, ?ek_sum, ?ek_func, ?ek_buf in Hv.
  all: try discriminate.
  all: try (exists 1%nat; intros [|L] HL; [lia|]; cbn in *; congruence).
  all: try (destruct (expr_key g E _ e1 ids) as [[k1 ids1]|] eqn:X1; [|discriminate]; cbn [obind] in Hv; destruct (expr_key g E _ e2 ids1) as [[k2 ids2]|] eqn:X2; [|discriminate]; cbn [obind] in Hv;
    destruct (IHe1 _ _ X1) as (a & Ha); destruct (IHe2 _ _ X2) as (c & Hc); exists (S (a + c))%nat; intros [|L] HL; [lia|]; cbn [expr_key_l]; rewrite Ha by lia; cbn [lbind]; rewrite Hc by lia; cbn [lbind]; congruence).
  all: try (destruct (expr_key g E _ e ids) as [[k1 ids1]|] eqn:X1; [|discriminate]; cbn [obind] in Hv;
    destruct (IHe _ _ X1) as (a & Ha); exists (S a)%nat; intros [|L] HL; [lia|]; cbn [expr_key_l]; rewrite Ha by lia; cbn [lbind]; congruence).
  all: try (destruct (get g n) as [nd|] eqn:Eg; [|discriminate]; cbn [obind] in *; destruct (key_many g E _ idx (nadd n ids)) as [[ks ids2]|] eqn:X; [|discriminate]; cbn [obind] in Hv;
    destruct (keys_ev _ _ H _ _ X) as (a & Ha); exists (S (S a))%nat; intros [|[|L]] HL; try lia; cbn [expr_key_l]; rewrite Eg; cbn [lbind]; rewrite Ha by lia; cbn [lbind];
    destruct (throw_none InternalErr (npos n (nadd n ids))); [|discriminate]; cbn [obind lbind] in *; congruence).
  destruct (throw_none InternalErr (E f)) as [fd|] eqn:Eg; [|discriminate]; cbn [obind] in *. destruct (expr_key g E k (f_expr fd) ids) as [[k1 ids1]|] eqn:X1; [|discriminate]. cbn [obind] in Hv.
  destruct (key_many g E _ idx ids1) as [[ks ids2]|] eqn:X; [|discriminate]; cbn [obind] in Hv. destruct (IHk _ _ _ X1) as (c & Hc). destruct (keys_ev _ _ H _ _ X) as (a & Ha).
  exists (S (S (a + c)))%nat. intros [|L] HL; [lia|]. cbn [expr_key_l]. rewrite Eg. cbn [lbind]. rewrite Hc by lia. cbn [lbind]. destruct L as [|L]; [lia|].
  rewrite Ha by lia. cbn [lbind]. congruence.
Qed.
End KeyFacts.

(* ------------------------------------------------------------------ facts: the generator *)
(* agrees: when the frames suffice, it is the method without a limit *)
Definition agr {A} (m : lmeth A) (m' : meth A) : Prop := forall o o' r, m o = (o', Some r) -> m' o = (o', r).
Definition full {A} (m : lmeth A) (m' : meth A) : Prop := forall o, m o = (fst (m' o), Some (snd (m' o))).
Lemma agr_up {A} (m : meth A) : agr (up m) m.
Proof. intros o o' r. unfold up. destruct (m o). congruence. Qed.
Lemma agr_none {A} (m : meth A) : agr out_of_frames m.
Proof. intros o o' r H. discriminate. Qed.
Lemma agr_seq {A B} (m : lmeth A) m' (f : A -> lmeth B) f' : agr m m' -> (forall x, agr (f x) (f' x)) -> agr (lseq m f) (seq m' f').
Proof.
  intros H1 H2 o o' r. unfold lseq, seq. destruct (m o) as [o1 [[x|e]|]] eqn:Em; [| |discriminate]; rewrite (H1 _ _ _ Em); [apply H2|congruence].
Qed.
Lemma full_up {A} (m : meth A) : full (up m) m.
Proof. intros o. unfold up. now destruct (m o). Qed.
Lemma full_seq {A B} (m : lmeth A) m' (f : A -> lmeth B) f' : full m m' -> (forall x, full (f x) (f' x)) -> full (lseq m f) (seq m' f').
Proof. intros H1 H2 o. unfold lseq, seq. rewrite H1. destruct (m' o) as [o1 [x|e]]; cbn; [apply H2|reflexivity]. Qed.

Lemma lmany_agr b g E args (f : expr -> lmeth string) l : (forall x, agr (f x) (o_render b g E args x Int64)) -> agr (lmany f l) (o_many b g E args l).
Proof.
  intros H. induction l as [|x l IH]; cbn [lmany]; [apply agr_up|]. rewrite o_many_cons. apply agr_seq; [apply H|]. intros v. apply agr_seq; [exact IH|]. intros vs. apply agr_up.
Qed.
Theorem render_agr b g E args : forall L e dt, agr (o_render_l b g E L args e dt) (o_render b g E args e dt).
Proof.
  induction L as [L IH] using lt_wf_ind. intros e dt. destruct L as [|k0]; [apply agr_none|]. cbn [o_render_l].
  destruct e; try (destruct k0 as [|k]; [apply agr_none|]; assert (IHk : forall e dt, agr (o_render_l b g E k args e dt) (o_render b g E args e dt)) by (apply IH; lia)); cbn [o_render];
    repeat (apply agr_seq; [first [apply agr_up | apply IHk | (fold (o_many b g E args); apply lmany_agr; intros; apply IHk)]|intros]); try apply agr_up.
Qed.
Theorem codegen_agr b g E L kname inputs f sc : agr (o_codegen_l b g E L kname inputs f sc) (o_codegen b g E kname inputs f sc).
Proof. unfold o_codegen_l, o_codegen. repeat (apply agr_seq; [first [apply agr_up | apply render_agr]|intros]). apply agr_up. Qed.

(* the frames that rendering needs *)
Fixpoint frames (e : expr) : nat :=
  match e with
  | EIdx _ | EConst _ => 1
  | EUn _ x | ESum x _ => 2 + frames x
  | EBin _ x y => 2 + Nat.max (frames x) (frames y)
  | EWhere c t f => 2 + Nat.max (frames c) (Nat.max (frames t) (frames f))
  | EBuf _ idx | EFunc _ idx => 2 + list_max (map frames idx)
  end.
Lemma lmany_full b g E args (f : expr -> lmeth string) l : Forall (fun x => full (f x) (o_render b g E args x Int64)) l -> full (lmany f l) (o_many b g E args l).
Proof.
  intros H. induction H as [|x l Hx _ IH]; cbn [lmany]; [apply full_up|]. rewrite o_many_cons. apply full_seq; [apply Hx|]. intros v. apply full_seq; [exact IH|]. intros vs. apply full_up.
Qed.
Theorem render_full b g E args : forall L e dt, (frames e <= L)%nat -> full (o_render_l b g E L args e dt) (o_render b g E args e dt).
Proof.
  induction L as [L IH] using lt_wf_ind. intros e dt HL. destruct L as [|k0]; [exfalso; destruct e; cbn in HL; lia|]. cbn [o_render_l].
  destruct e; try (destruct k0 as [|k]; [exfalso; cbn in HL; lia|]; assert (IHk : forall e dt, (frames e <= k)%nat -> full (o_render_l b g E k args e dt) (o_render b g E args e dt)) by (intros; apply IH; lia)); cbn [o_render frames] in *;
    try (assert (HF : forall x, In x idx -> (frames x <= k)%nat) by (intros x Hx; assert (HM : Forall (fun n => (n <= k)%nat) (map frames idx)) by (apply list_max_le; lia); rewrite Forall_forall in HM; apply HM; now apply in_map));
    repeat (apply full_seq; [first [apply full_up | (apply IHk; lia) | (fold (o_many b g E args); apply lmany_full; apply Forall_forall; intros ? ?; apply IHk; now apply HF)]|intros]); try apply full_up.
Qed.
Theorem codegen_full b g E L kname inputs f sc : (frames (f_expr f) <= L)%nat -> full (o_codegen_l b g E L kname inputs f sc) (o_codegen b g E kname inputs f sc).
Proof. intros HL. unfold o_codegen_l, o_codegen. repeat (apply full_seq; [first [apply full_up | (apply render_full; exact HL)]|intros]). apply full_up. Qed.

(* indentation and counter at every point where a method may stop: it starts at indentation b0 + k, never leaves through the floor b0,
   and returns at b0 + k' *)
Definition hold {A} (b0 k : Z) (m : lmeth A) (k' : Z) : Prop := forall o o' r, m o = (o', r) -> ob_ind o = b0 + k ->
  (ob_tmp o <= ob_tmp o')%nat /\ b0 <= ob_ind o' /\ (forall x, r = Some (Done x) -> ob_ind o' = b0 + k').
Lemma hold_seq {A B} b0 k k1 k2 (m : lmeth A) (f : A -> lmeth B) : hold b0 k m k1 -> (forall x, hold b0 k1 (f x) k2) -> hold b0 k (lseq m f) k2.
Proof.
  intros H1 H2 o o' r H Hk. unfold lseq in H. destruct (m o) as [o1 [[x|e]|]] eqn:Em; destruct (H1 _ _ _ Em Hk) as (T1 & F1 & D1).
  - destruct (H2 x _ _ _ H (D1 x eq_refl)) as (T2 & F2 & D2). split; [lia|]. split; auto.
  - injection H as <- <-. repeat split; auto; discriminate.
  - injection H as <- <-. repeat split; auto; discriminate.
Qed.
Lemma hold_up_seq {A B} b0 k k1 k2 (m : meth A) (f : A -> meth B) : hold b0 k (up m) k1 -> (forall x, hold b0 k1 (up (f x)) k2) -> hold b0 k (up (seq m f)) k2.
Proof.
  intros H1 H2 o o' r H. apply (hold_seq b0 k k1 k2 (up m) (fun x => up (f x)) H1 H2). rewrite <- H. unfold lseq, up, seq. destruct (m o) as [o1 [x|e]]; reflexivity.
Qed.
Lemma hold_none {A} b0 k k' : 0 <= k -> hold b0 k (@out_of_frames A) k'.
Proof. intros Hp o o' r H Hk. injection H as <- <-. repeat split; try lia. discriminate. Qed.
Lemma hold_ret {A} b0 k (x : A) : 0 <= k -> hold b0 k (up (ret x)) k.
Proof. intros Hp o o' r H Hk. injection H as <- <-. repeat split; try lia. Qed.
Lemma hold_lift {A} b0 k (x : outcome A) : 0 <= k -> hold b0 k (up (lift x)) k.
Proof. intros Hp o o' r H Hk. destruct x; injection H as <- <-; repeat split; lia. Qed.
Lemma hold_nest b0 k : 0 <= k -> hold b0 k (up o_nest) (k + 1).
Proof. intros Hp o o' r H Hk. injection H as <- <-. cbn. repeat split; lia. Qed.
Lemma hold_unnest b0 k : 1 <= k -> hold b0 k (up o_unnest) (k - 1).
Proof. intros Hp o o' r H Hk. injection H as <- <-. cbn. repeat split; lia. Qed.
Lemma hold_tmpvar b0 k : 0 <= k -> hold b0 k (up o_tmpvar) k.
Proof. intros Hp o o' r H Hk. injection H as <- <-. cbn. repeat split; lia. Qed.
Lemma hold_write b0 k l : 0 <= k -> hold b0 k (up (o_write l)) k.
Proof.
  intros Hp. induction l as [|x l IH]; cbn [o_write]; [now apply hold_ret|]. eapply hold_up_seq; [|intros; exact IH].
  intros o o' r H Hk. injection H as <- <-. cbn. repeat split; lia.
Qed.
Lemma hold_sub {A} b0 k (m : lmeth A) : 0 <= k -> (forall b0, hold b0 0 m 0) -> hold b0 k m k.
Proof. intros Hp H o o' r HM Hk. destruct (H (b0 + k) o o' r HM) as (T & F & D); [lia|]. split; [auto|]. split; [lia|]. intros x Hx. specialize (D x Hx). lia. Qed.
Lemma hold_open b0 b red : forall k, 0 <= k -> hold b0 k (up (each (fun l => o_write [sequential_loop_start b (pname (lname l)) "0" (dec (l_ext l)) "1"] !; o_nest) red)) (k + Z.of_nat (length red)).
Proof.
  induction red as [|l red IH]; intros k Hp; cbn [each length].
  - replace (k + Z.of_nat 0) with k by lia. now apply hold_ret.
  - eapply hold_up_seq; [eapply hold_up_seq; [now apply hold_write|intros; now apply hold_nest]|]. intros _. replace (k + Z.of_nat (S (length red))) with (k + 1 + Z.of_nat (length red)) by lia. apply IH. lia.
Qed.
Lemma hold_close b0 b {A} (red : list A) : forall k, Z.of_nat (length red) <= k -> hold b0 k (up (each (fun _ => o_unnest !; o_write [loop_end b]) red)) (k - Z.of_nat (length red)).
Proof.
  induction red as [|l red IH]; intros k Hp; cbn [each length] in *.
  - replace (k - Z.of_nat 0) with k by lia. apply hold_ret. lia.
  - eapply hold_up_seq; [eapply hold_up_seq; [apply hold_unnest; lia|intros; apply hold_write; lia]|]. intros _. replace (k - Z.of_nat (S (length red))) with (k - 1 - Z.of_nat (length red)) by lia. apply IH. lia.
Qed.
Lemma hold_many b0 (f : expr -> lmeth string) l : (forall x b0, hold b0 0 (f x) 0) -> hold b0 0 (lmany f l) 0.
Proof.
  intros H. induction l as [|x l IH]; cbn [lmany]; [now apply hold_ret|]. eapply hold_seq; [apply H|]. intros v. eapply hold_seq; [exact IH|]. intros vs. now apply hold_ret.
Qed.
Ltac hd := first [apply hold_write; lia | apply hold_tmpvar; lia | apply hold_lift; lia | apply hold_nest; lia | apply hold_unnest; lia | apply hold_ret; lia | apply hold_open; lia].
Theorem render_hold b g E args : forall L e dt b0, hold b0 0 (o_render_l b g E L args e dt) 0.
Proof.
  induction L as [L IH] using lt_wf_ind. intros e dt b0. destruct L as [|k0]; [now apply hold_none|]. cbn [o_render_l].
  destruct e; try (apply hold_ret; lia); (destruct k0 as [|k]; [now apply hold_none|]); assert (IHk : forall e dt b0, hold b0 0 (o_render_l b g E k args e dt) 0) by (intros; apply IH; lia).
  - eapply hold_seq; [apply IHk|]. intros l. eapply hold_seq; [apply IHk|]. intros r. repeat (eapply hold_up_seq; [hd|intros]). hd.
  - eapply hold_seq; [apply IHk|]. intros l. repeat (eapply hold_up_seq; [hd|intros]). hd.
  - do 2 (eapply hold_seq; [hd|intros]). eapply hold_seq; [apply IHk|]. intros cond. eapply hold_seq; [hd|]. intros _. eapply hold_seq; [hd|]. intros _. cbn [Z.add].
    eapply hold_seq; [apply hold_sub; [lia|intros; apply IHk]|]. intros tv. eapply hold_seq; [hd|intros _]. eapply hold_seq; [hd|intros _]. cbn [Z.sub Z.add Z.opp Z.pos_sub].
    eapply hold_seq; [hd|intros _]. eapply hold_seq; [hd|intros _]. eapply hold_seq; [apply hold_sub; [lia|intros; apply IHk]|]. intros fv.
    eapply hold_up_seq; [hd|intros _]. eapply hold_up_seq; [hd|intros _]. eapply hold_up_seq; [hd|intros _]. hd.
  - eapply hold_seq; [hd|intros _]. eapply hold_seq; [hd|intros _]. eapply hold_seq; [apply hold_sub; [lia|intros; apply IHk]|]. intros r.
    eapply hold_up_seq; [hd|intros _]. eapply hold_up_seq; [apply hold_close; lia|intros _]. replace (0 + Z.of_nat (length reduced) - Z.of_nat (length reduced)) with 0 by lia. hd.
  - eapply hold_seq; [hd|intros fnc]. eapply hold_seq; [hd|intros fd]. eapply hold_seq; [apply hold_many; intros; apply IHk|]. intros names. hd.
  - eapply hold_seq; [hd|intros fnc]. eapply hold_seq; [hd|intros fd]. eapply hold_seq; [apply hold_many; intros; apply IHk|]. intros names. apply hold_ret. lia.
Qed.

Lemma loops_hold b : forall loops o o' k, o_loops b loops o = (o', Done k) -> ob_ind o' = ob_ind o + Z.of_nat k /\ (ob_tmp o <= ob_tmp o')%nat.
Proof.
  induction loops as [|l r IH]; intros o o' k H; cbn [o_loops] in H; [injection H as <- <-; lia|]. destruct (is_spatial l); [|eauto].
  destruct (loop_start b (ls_exec l) (pname (lv_name (ls_lv l))) (dec (lv_ext (ls_lv l)))) as [[lns looped]|e]; [|discriminate]. cbn [lift] in H. rewrite seq_ret in H.
  unfold seq at 1 in H. destruct (o_write lns o) as [o1 w] eqn:Ew. destruct (hold_write (ob_ind o) 0 lns ltac:(lia) o o1 (Some w)) as (T1 & _ & D1); [unfold up; now rewrite Ew|lia|].
  destruct w as [[]|e]; [|discriminate]. specialize (D1 tt eq_refl). unfold seq at 1 in H.
  assert (HX : exists o2, (if looped : bool then o_nest else ret tt) o1 = (o2, Done tt) /\ ob_ind o2 = ob_ind o1 + (if looped then 1 else 0) /\ ob_tmp o2 = ob_tmp o1).
  { destruct looped; eexists; split; try reflexivity; cbn; lia. }
  destruct HX as (o2 & Eo & I2 & T2). rewrite Eo in H. unfold seq in H. destruct (o_loops b r o2) as [o3 [k3|e]] eqn:E3; [|discriminate]. destruct (IH _ _ _ E3) as [I3 T3].
  injection H as <- <-. destruct looped; lia.
Qed.
Lemma splits_hold b0 k b sps : 0 <= k -> hold b0 k (up (o_splits b sps)) k.
Proof.
  intros Hk. unfold o_splits. induction sps as [|sp r IH]; cbn [each]; [now apply hold_ret|]. eapply hold_up_seq; [apply hold_write; lia|]. intros _. exact IH.
Qed.
Lemma guards_hold b0 k b sps : 0 <= k -> hold b0 k (up (o_guards b sps)) k.
Proof.
  intros Hk. unfold o_guards. induction sps as [|sp r IH]; cbn [each]; [now apply hold_ret|]. eapply hold_up_seq; [|intros _; exact IH].
  destruct (sp_guard sp); [|now apply hold_ret]. repeat (eapply hold_up_seq; [hd|intros _]). replace (k + 1 - 1) with k by lia. hd.
Qed.
Lemma lseq_none {A B} (m : lmeth A) (f : A -> lmeth B) o o' : lseq m f o = (o', None) -> m o = (o', None) \/ exists o1 x, m o = (o1, Some (Done x)) /\ f x o1 = (o', None).
Proof. unfold lseq. destruct (m o) as [o1 [[x|e]|]]; intros H; [right; eauto|discriminate H|left; injection H as <-; reflexivity]. Qed.
Lemma up_some {A} (m : meth A) o o' : up m o <> (o', None).
Proof. unfold up. destruct (m o). intros H; discriminate H. Qed.
(* RecursionError inside codegen(): the indentation of the object has grown *)
Theorem codegen_exhausted b g E L kname inputs f sc o o' : o_codegen_l b g E L kname inputs f sc o = (o', None) -> ob_ind o < ob_ind o' /\ (ob_tmp o <= ob_tmp o')%nat.
Proof.
  unfold o_codegen_l. cbv zeta. intros H.
  apply lseq_none in H as [H|(o1 & [] & H1 & H)]; [now apply up_some in H|]. assert (I1 : ob_ind o1 = ob_ind o /\ ob_tmp o1 = ob_tmp o) by (injection H1 as <-; auto). clear H1.
  apply lseq_none in H as [H|(o2 & [] & H2 & H)]; [now apply up_some in H|]. destruct (hold_write (ob_ind o1) 0 _ ltac:(lia) _ _ _ H2) as (T2 & _ & D2); [lia|]. specialize (D2 _ eq_refl). clear H2.
  apply lseq_none in H as [H|(o3 & ts & H3 & H)]; [now apply up_some in H|]. destruct (hold_lift (ob_ind o2) 0 _ ltac:(lia) _ _ _ H3) as (T3 & _ & D3); [lia|]. specialize (D3 _ eq_refl). clear H3.
  apply lseq_none in H as [H|(o4 & [] & H4 & H)]; [now apply up_some in H|]. destruct (hold_write (ob_ind o3) 0 _ ltac:(lia) _ _ _ H4) as (T4 & _ & D4); [lia|]. specialize (D4 _ eq_refl). clear H4.
  apply lseq_none in H as [H|(o5 & [] & H5 & H)]; [now apply up_some in H|]. assert (I5 : ob_ind o5 = ob_ind o4 + 1 /\ ob_tmp o5 = ob_tmp o4) by (injection H5 as <-; auto). clear H5.
  apply lseq_none in H as [H|(o6 & cnt & H6 & H)]; [now apply up_some in H|]. unfold up in H6. destruct (o_loops b (s_loops sc) o5) as [o6' [c|e]] eqn:E6; [|discriminate]. injection H6 as -> ->. destruct (loops_hold _ _ _ _ _ E6) as [I6 T6]. clear E6.
  apply lseq_none in H as [H|(o7 & [] & H7 & H)]; [now apply up_some in H|]. destruct (splits_hold (ob_ind o6) 0 _ _ ltac:(lia) _ _ _ H7) as (T7 & _ & D7); [lia|]. specialize (D7 _ eq_refl). clear H7.
  apply lseq_none in H as [H|(o8 & [] & H8 & H)]; [now apply up_some in H|]. destruct (guards_hold (ob_ind o7) 0 _ _ ltac:(lia) _ _ _ H8) as (T8 & _ & D8); [lia|]. specialize (D8 _ eq_refl). clear H8.
  apply lseq_none in H as [H|(o9 & r & H9 & H)]; [|now apply up_some in H]. destruct (render_hold _ _ _ _ _ _ _ (ob_ind o8) _ _ _ H) as (T9 & D9 & _); [lia|]. lia.
Qed.
