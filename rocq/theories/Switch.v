(* backend.reset(name): changing the backend of a running process (backend.py:79-96), for the two CPU
   backends.  The arrays and their lists of numbers, and the kernel cache (which lives in materialize.py,
   not in the backend), survive; the code generator, the compiler and the executor are new. *)
From Verif Require Import Base BaseFacts Util UtilFacts Lang Spec Graph Api ApiFacts Denote SpecFacts DenoteFacts Reach Tolist TolistFacts
  Algo AlgoSem AlgoConv AlgoConv2 AlgoFuse AlgoFuse2 AlgoConvert AlgoConvert2
  Kernel Sched Codegen Backends KernFacts RenderFacts KernelOk RunFacts SchedFacts SchedGpu KernelRun KernelRun2 BackendFacts AlgoTop
  AlgoMore CacheKey Runtime RuntimeFacts RuntimeFacts2 History HistFacts RtInst LangInst CacheFacts Frame HistFacts2 RuntimeTop Safety.

(* backend.py:79-84 detect("PYTHON"), detect("CLANG"); the GPU backend is not part of this file *)
Inductive which := PyB | CB.
Definition which_eq_dec (x y : which) : {x = y} + {x <> y}. Proof. decide equality. Defined.

(* A number in a list is a Python int or float whichever backend put it there (backend_clang.py:47
   list(c_params[0])).  The two value domains describe the same numbers. *)
Definition to_c (v : pyval) : cval := match v with PI z => c_num (NInt z) | PF f => CF f end.
Definition to_py (v : cval) : pyval := match v with CI32 z | CI64 z => PI z | CF f => PF f end.
Lemma to_py_c v : to_py (to_c v) = v.
Proof. destruct v as [z|f]; auto. unfold to_c, c_num. destruct (c_fits false z); reflexivity. Qed.
Lemma to_c_num n : to_c (py_num n) = c_num n.
Proof. destruct n; reflexivity. Qed.
Lemma to_py_num n : to_py (c_num n) = py_num n.
Proof. destruct n as [z|m e]; auto. unfold c_num. destruct (c_fits false z); reflexivity. Qed.

Section Switch.
Context (lm : libm).
Definition bk (w : which) : cpu_backend := match w with PyB => py_backend lm | CB => c_backend lm end.
#[local] Arguments bk : simpl never.
Notation V w := (val (b_lang (bk w))).
Definition conv (w w' : which) : V w -> V w' :=
  match w, w' with PyB, PyB => fun v => v | PyB, CB => to_c | CB, PyB => to_py | CB, CB => fun v => v end.
(* the number as Python prints it *)
Definition shown_as (w : which) : V w -> pyval := match w with PyB => fun v => v | CB => to_py end.
Lemma conv_num w w' n : conv w w' (of_num (b_lang (bk w)) n) = of_num (b_lang (bk w')) n.
Proof. destruct w, w'; cbn -[to_c to_py py_num c_num]; auto using to_c_num, to_py_num. Qed.
Lemma conv_shown w w' v : shown_as w' (conv w w' v) = shown_as w v.
Proof. destruct w, w'; cbn -[to_c to_py]; auto using to_py_c. Qed.

(* Calling a kernel that the other backend compiled, after zero-filling (backend.py:33-38).
   Python executor (backend_python.py:56): kern.bin is a ctypes function whose argtypes are POINTER types
   (backend_clang.py:42); a list is no pointer: ctypes.ArgumentError (TypeErr here).
   Clang executor (backend_clang.py:40-47): the Python function runs on the converted ctypes arrays; what it
   leaves in the first of them, or raises, is not modelled: [mixed] is an arbitrary function that says so.
   ctypes arrays have a fixed length and element type ([as_array]). *)
Definition as_array (dt : dtype) (n : nat) (out : list cval) : list cval := map (c_coerce dt) (firstn n (out ++ repeat (CI64 0) n)).
Context (mixed : kernel -> list (list cval) -> outcome (list cval)).
Definition foreign (w : which) : rt (bk w) -> kernel -> list nat -> rt (bk w) * outcome unit :=
  match w with
  | PyB => fun s0 kern params =>
      let s := mkRt (bk PyB) (r_graph _ s0) (r_cpu _ s0) (r_cache _ s0) (r_tmp _ s0) (S (r_runs _ s0)) in
      match zero_fill (bk PyB) (r_graph _ s) params (r_cpu _ s) with
      | Throw e => (s, Throw e)
      | Done m => (set_cpu _ s m, Throw TypeErr)
      end
  | CB => fun s0 kern params =>
      let s := mkRt (bk CB) (r_graph _ s0) (r_cpu _ s0) (r_cache _ s0) (r_tmp _ s0) (S (r_runs _ s0)) in
      match zero_fill (bk CB) (r_graph _ s) params (r_cpu _ s) with
      | Throw e => (s, Throw e)
      | Done m =>
          match copy_in (bk CB) (r_graph _ s) params m with
          | Throw e => (set_cpu _ s m, Throw e)
          | Done cs =>
              match mixed kern cs, params, cs with
              | Done out, p0 :: _, c0 :: _ =>
                  match nth_error (r_graph _ s) p0 with
                  | Some nd => (set_cpu _ s (sset m p0 (as_array (n_dtype nd) (length c0) out)), Done tt)
                  | None => (set_cpu _ s m, Throw InternalErr)
                  end
              | Throw e, _, _ => (set_cpu _ s m, Throw e)
              | _, _, _ => (set_cpu _ s m, Throw InternalErr)
              end
          end
      end
  end.

(* materialize.py:44-71 when the cache may hold kernels of the other backend, [old] being their keys *)
Definition prun_func (w : which) (old : list kkey) (E : fenv) (fd : func) (sc : schedule) (s : rt (bk w)) : rt (bk w) * outcome unit :=
  match mapOut (arg_buffer E) (func_args (f_expr fd)), cache_key (r_graph _ s) E fd sc with
  | Done bufs, Done key =>
      match cache_get (r_cache _ s) key with
      | Some kern => if in_dec kkey_eq_dec key old then foreign w s kern (f_out fd :: bufs) else run_func (bk w) E fd sc s
      | None => run_func (bk w) E fd sc s
      end
  | _, _ => run_func (bk w) E fd sc s
  end.
Fixpoint prun_funcs (w : which) (old : list kkey) (E : fenv) (l : list (func * schedule)) (s : rt (bk w)) : rt (bk w) * outcome unit :=
  match l with
  | [] => (s, Done tt)
  | (fd, sc) :: r => match prun_func w old E fd sc s with
                     | (s', Done _) => prun_funcs w old E r s'
                     | (s', Throw e) => (s', Throw e)
                     end
  end.
(* materialize.py:15-43 *)
Definition pcompute (w : which) (old : list kkey) (s : rt (bk w)) (a : nat) : rt (bk w) * outcome unit :=
  match convert (r_graph _ s) a with
  | Throw e => (s, Throw e)
  | Done (E, fs) =>
      match mapOut (schedule_one (bk w) E) fs with
      | Throw e => (s, Throw e)
      | Done l => prun_funcs w old E l s
      end
  end.
Fixpoint pmat (w : which) (old : list kkey) (fuel : nat) (s : rt (bk w)) (a : nat) : rt (bk w) * outcome unit :=
  match fuel with
  | O => (s, Throw InternalErr)
  | S k =>
      match nth_error (r_graph _ s) a with
      | None => (s, Throw InternalErr)
      | Some nd =>
          if is_const (n_op nd) then (s, Done tt)
          else if is_view (n_op nd) then match n_in nd with b :: _ => pmat w old k s b | [] => (s, Throw IndexErr) end
          else pcompute w old s a
      end
  end.
Definition pmaterialize (w : which) (old : list kkey) (s : rt (bk w)) (a : nat) : rt (bk w) * outcome unit := pmat w old (length (r_graph _ s)) s a.

(* backend.py:94-96 reset: everything but the backend stays as it is; the new code generator counts its
   temporaries from 0 (codegen.py:13) *)
Definition switch (w w' : which) (s : rt (bk w)) : rt (bk w') :=
  mkRt (bk w') (r_graph _ s) (fun n => option_map (map (conv w w')) (r_cpu _ s n)) (r_cache _ s) 0 (r_runs _ s).
(* the kernels that are now the other backend's *)
Definition switch_old (w w' : which) (s : rt (bk w)) (old : list kkey) : list kkey :=
  if which_eq_dec w w' then old
  else filter (fun k => if in_dec kkey_eq_dec k old then false else true) (map fst (r_cache _ s)).
(* no list of an integer array holds a float (Python puts one there for int / int, see C06) *)
Definition portable (w w' : which) (s : rt (bk w)) : Prop :=
  forall n nd vs, nth_error (r_graph _ s) n = Some nd -> is_const (n_op nd) = false -> r_cpu _ s n = Some vs ->
    forallb (b_accept (bk w') (n_dtype nd)) (map (conv w w') vs) = true.

(* a process: the current backend, the state, the keys of the cached kernels compiled by the other one *)
Inductive phist (C : desc -> Prop) : forall w, rt (bk w) -> list kkey -> Prop :=
| ph_init w : phist C w (rt0 (bk w)) []
| ph_call w s old c : phist C w s old -> call_ok (r_graph _ s) c -> phist C w (fst (api_call (bk w) s c)) old
| ph_mat w s old a : phist C w s old -> valid (r_graph _ s) a -> (w = CB -> old = []) ->
    (forall b, base (r_graph _ s) a = Some b -> mat_ok (b_lang (bk w)) (r_graph _ s) b) ->
    (forall d, kernel_of (r_graph _ s) a d -> C d) ->
    phist C w (fst (pmaterialize w old s a)) old
| ph_reset w s old : phist C w s old -> phist C w (reset_cache (bk w) s) []
| ph_switch w w' s old : phist C w s old -> portable w w' s -> phist C w' (switch w w' s) (switch_old w w' s old).

(* any process history: any kernels, any stale kernels, any numbers *)
Inductive pany : forall w, rt (bk w) -> list kkey -> Prop :=
| pa_init w : pany w (rt0 (bk w)) []
| pa_call w s old c : pany w s old -> call_ok (r_graph _ s) c -> pany w (fst (api_call (bk w) s c)) old
| pa_mat w s old a : pany w s old -> valid (r_graph _ s) a -> pany w (fst (pmaterialize w old s a)) old
| pa_reset w s old : pany w s old -> pany w (reset_cache (bk w) s) []
| pa_switch w w' s old : pany w s old -> pany w' (switch w w' s) (switch_old w w' s old).

(* ------------------------------------------------------------------ no old kernels: nothing changes *)
Lemma prun_func_nil w E fd sc s : prun_func w [] E fd sc s = run_func (bk w) E fd sc s.
Proof. unfold prun_func. destruct (mapOut _ _); auto. destruct (cache_key _ _ _ _); auto. destruct (cache_get _ _); auto. Qed.
Lemma prun_funcs_nil w E l : forall s, prun_funcs w [] E l s = run_funcs (bk w) E l s.
Proof.
  induction l as [|[fd sc] l IH]; intros s; cbn [prun_funcs run_funcs]; auto. rewrite prun_func_nil.
  destruct (run_func (bk w) E fd sc s) as [s' [u|e]]; auto.
Qed.
Lemma pmat_nil w k : forall s a, pmat w [] k s a = mat (bk w) k s a.
Proof.
  induction k as [|k IH]; intros s a; cbn [pmat mat]; auto. destruct (nth_error _ _) as [nd|]; auto. destruct (is_const _); auto.
  destruct (is_view _); [destruct (n_in nd); auto|]. unfold pcompute, compute. destruct (convert _ _) as [[E fs]|]; auto. destruct (mapOut _ _); auto. apply prun_funcs_nil.
Qed.
Lemma pmaterialize_nil w s a : pmaterialize w [] s a = materialize (bk w) s a.
Proof. apply pmat_nil. Qed.

Lemma bk_cpu w : is_cpu_backend (bk w).
Proof. destruct w; [left|right]; exists lm; reflexivity. Qed.
Lemma bk_ok w : backend_ok (bk w).
Proof. apply cpu_ok, bk_cpu. Qed.

Lemma pmat_compute w old s a b bd : wf_graph (r_graph _ s) -> base (r_graph _ s) a = Some b -> (a < length (r_graph _ s))%nat -> nth_error (r_graph _ s) b = Some bd ->
  pmaterialize w old s a = if is_const (n_op bd) then (s, Done tt) else pcompute w old s b.
Proof.
  intros Hw Hb Ha Hbd. destruct (base_total _ a Hw Ha) as (b' & Hb' & _ & Hv). assert (b' = b) by congruence. subst b'.
  unfold pmaterialize. assert (HF : forall fuel, (a < fuel)%nat -> pmat w old fuel s a = if is_const (n_op bd) then (s, Done tt) else pcompute w old s b).
  { clear Hb Hb' Ha. induction Hv as [b nd Hn Hnv|a nd p pd b Hn Hvw Hp Hpd _ Hv IH]; intros [|k] Hk; try lia; cbn [pmat].
    - rewrite Hn. assert (bd = nd) by congruence. subst. rewrite Hnv. reflexivity.
    - rewrite Hn. destruct (is_const (n_op nd)) eqn:Ec; [destruct (n_op nd); discriminate|]. rewrite Hvw.
      destruct (n_in nd) as [|q r] eqn:Ei; [discriminate|]. cbn in Hp. injection Hp as ->.
      apply IH; auto. pose proof (wf_inputs_lt _ a nd Hw Hn) as HF. rewrite Ei in HF. inversion HF; subst. lia. }
  apply HF. exact Ha.
Qed.

(* ------------------------------------------------------------------ the invariant of Runtime survives a switch *)
Section Inv.
Context (C : desc -> Prop) (HC : key_safe C).

Lemma switch_inv w w' s : inv (bk w) C s -> portable w w' s -> inv (bk w') C (switch w w' s).
Proof.
  intros [H1 H2 H3 H4 H5] HP. split; cbn [switch r_graph r_cpu r_cache]; auto.
  - intros n nd vals Hn Hop. rewrite (H2 n nd vals Hn Hop). cbn [option_map]. rewrite map_map. f_equal. apply map_ext. apply conv_num.
  - intros n nd vs Hn Hc Hvs. destruct (r_cpu (bk w) s n) as [ws|] eqn:Ew; [|discriminate]. cbn in Hvs. injection Hvs as <-.
    rewrite map_length. split; [exact (proj1 (H3 n nd ws Hn Hc Ew))|]. exact (HP n nd ws Hn Hc Ew).
  - intros n Hn. now rewrite (H4 n Hn).
Qed.

Lemma zero_fill_some w g ps : forall (m m1 : store (b_lang (bk w))), zero_fill (bk w) g ps m = Done m1 -> forall n vs, m n = Some vs -> m1 n = Some vs.
Proof.
  induction ps as [|p ps IH]; intros m m1 H n vs Hn; cbn [zero_fill] in H; [injection H as <-; auto|].
  bd H. eapply IH; eauto. destruct (m p) eqn:Ep; auto. unfold sset. destruct (Nat.eqb_spec p n); [subst; congruence|auto].
Qed.
Lemma zero_fill_new w g ps : forall (m m1 : store (b_lang (bk w))), zero_fill (bk w) g ps m = Done m1 -> forall n vs, m1 n = Some vs -> m n = Some vs \/
  exists nd, nth_error g n = Some nd /\ m n = None /\ vs = repeat (lit (b_lang (bk w)) 0) (Z.to_nat (n_len nd)) /\ In n ps.
Proof.
  induction ps as [|p ps IH]; intros m m1 H n vs Hn; cbn [zero_fill] in H; [injection H as <-; auto|].
  bd H. destruct (IH _ _ H n vs Hn) as [A|(nd & A1 & A2 & A3 & A4)].
  - destruct (m p) eqn:Ep; auto. unfold sset in A. destruct (Nat.eqb_spec p n); [|auto]. subst p. right. unfold get in D. destruct (nth_error g n) as [nd|]; [|discriminate].
    injection D as <-. exists nd. split; auto. split; auto. split; [congruence|now left].
  - right. exists nd. split; auto. split; [|split; [auto|now right]]. destruct (m p) eqn:Ep; auto. unfold sset in A2. destruct (Nat.eqb p n); congruence.
Qed.
Lemma foreign_py s kern ps s' o : inv (bk PyB) C s -> (forall p, In p ps -> valid (r_graph _ s) p) -> foreign PyB s kern ps = (s', o) ->
  o = Throw TypeErr /\ inv (bk PyB) C s' /\ r_graph _ s' = r_graph _ s /\ r_cache _ s' = r_cache _ s /\ (forall n vs, r_cpu _ s n = Some vs -> r_cpu _ s' n = Some vs) /\
  (forall n, ~ In n ps -> r_cpu _ s' n = r_cpu _ s n).
Proof.
  intros HI Hps. unfold foreign. cbn [r_graph r_cpu]. destruct (zero_fill (bk PyB) (r_graph (bk PyB) s) ps (r_cpu (bk PyB) s)) as [m|e] eqn:EZ.
  2:{ exfalso. clear - EZ Hps. revert EZ Hps. generalize (r_cpu (bk PyB) s). induction ps as [|p ps IH]; intros m EZ Hps; cbn [zero_fill] in EZ; [discriminate|].
      assert (Hv := Hps p (or_introl eq_refl)). unfold get in EZ. destruct (nth_error (r_graph (bk PyB) s) p) eqn:E; [|apply nth_error_None in E; unfold valid in Hv; lia].
      cbn [obind throw_none] in EZ. eapply IH; eauto. intros; apply Hps; now right. }
  intros H. injection H as <- <-. split; auto. pose proof (zero_fill_some _ _ _ _ _ EZ) as Z1. pose proof (zero_fill_new _ _ _ _ _ EZ) as Z2.
  split; [|split; [|split; [|split]]]; auto.
  - destruct HI as [H1 H2 H3 H4 H5]. split; cbn [set_cpu r_graph r_cpu r_cache]; auto.
    + intros n nd vals Hn Hop. apply Z1. eauto.
    + intros n nd vs Hn Hc Hvs. split; [|apply forallb_forall; reflexivity]. destruct (Z2 n vs Hvs) as [A|(nd' & A1 & A2 & -> & _)].
      * exact (proj1 (H3 n nd vs Hn Hc A)).
      * assert (Hx : Some nd' = Some nd) by exact (eq_trans (eq_sym A1) Hn). injection Hx as ->. eapply (zero_fill_length (bk PyB) _ nd (r_cpu (bk PyB) s) (r_graph (bk PyB) s) n); auto; [apply reach_wf; auto|intros vs' Hvs'; rewrite A2 in Hvs'; discriminate|now rewrite A2].
    + intros n Hn. destruct (m n) as [vs|] eqn:Em; auto. destruct (Z2 n vs Em) as [A|(nd' & A1 & _)]; [rewrite (H4 n Hn) in A; discriminate|]. assert (Hx : Some nd' = None) by exact (eq_trans (eq_sym A1) Hn). discriminate.
  - cbn [set_cpu r_cpu]. intros n Hn. destruct (m n) as [vs|] eqn:Em.
    + destruct (Z2 n vs Em) as [A|(nd' & _ & _ & _ & A)]; [auto|contradiction].
    + destruct (r_cpu (bk PyB) s n) as [vs|] eqn:Ec; auto. rewrite (Z1 n vs Ec) in Em. discriminate.
Qed.

(* Python with kernels of the other backend in the cache: as always, until one of those is needed *)
Section PyRun.
Notation P := (bk PyB).
Context (old : list kkey) (g : graph) (a : nat) (nda : node) (Ha : nth_error g a = Some nda) (Hnc : is_const (n_op nda) = false)
  (Hns : no_scalar_reshape g a) (E : fenv) (fs : list nat) (Hcv : convert g a = Done (E, fs))
  (HCg : forall f fd sc, In f fs -> E f = Some fd -> auto_schedule false fd = Done sc -> C (mkD g E fd sc)).
Let Hm : mat_ok (b_lang P) g a := py_mat_ok lm g a.

Lemma good_some s s' n : r_graph P s' = r_graph P s -> (forall n vs, r_cpu P s n = Some vs -> r_cpu P s' n = Some vs) -> good P s n -> good P s' n.
Proof. intros Hg Hs (nd & vs & H1 & H2 & H3 & H4). exists nd, vs. rewrite Hg. auto. Qed.

Lemma prun_func_py s l1 f l2 fd sc : inv P C s -> r_graph P s = g -> fs = l1 ++ f :: l2 -> (forall d, In d l1 -> good P s d) ->
  E f = Some fd -> auto_schedule false fd = Done sc ->
  exists s' oc, prun_func PyB old E fd sc s = (s', oc) /\ inv P C s' /\ r_graph P s' = g /\
    (forall b, ~ cone g a b -> r_cpu P s' b = r_cpu P s b) /\ (forall n, good P s n -> good P s' n) /\
    match oc with
    | Done _ => good P s' f
    | Throw e => (e = ValueErr /\ exists idx, in_range (shape_of g f) idx /\ t_at (den (b_lang P) g f) idx = Raise) \/ (e = TypeErr /\ old <> [])
    end.
Proof using HC Ha Hnc Hns Hcv HCg.
  intros HI Hg Hfs Hgood Hfd Hsc. pose proof (i_reach _ _ _ HI) as Hr. rewrite Hg in Hr. pose proof (reach_wf _ Hr) as Hw.
  assert (Hva : valid g a) by (unfold valid; apply nth_error_Some; congruence).
  pose proof (convert_inv (b_lang P) g a E fs (bo_lang _ (bk_ok PyB)) Hr Hva Hns Hcv) as HS.
  assert (Hf : In f fs) by (rewrite Hfs; apply in_or_app; right; now left).
  assert (Hcone : cone g a f) by (eapply cs_cone; eauto).
  assert (NAT : exists s' oc, run_func P E fd sc s = (s', oc) /\ inv P C s' /\ r_graph P s' = g /\
    (forall b, ~ cone g a b -> r_cpu P s' b = r_cpu P s b) /\ (forall n, good P s n -> good P s' n) /\
    match oc with
    | Done _ => good P s' f
    | Throw e => (e = ValueErr /\ exists idx, in_range (shape_of g f) idx /\ t_at (den (b_lang P) g f) idx = Raise) \/ (e = TypeErr /\ old <> [])
    end).
  { destruct (run_func_ok P (bk_ok PyB) C HC g a nda Ha Hnc Hns Hm E fs Hcv HCg s l1 f l2 fd sc HI Hg Hfs Hgood Hfd Hsc) as (s' & oc & R1 & R2 & R3 & _ & R5 & R6 & R7).
    exists s', oc. split; auto. split; auto. split; auto. split; [intros b Hb; apply R5; intros ->; auto|]. split; auto. destruct oc; [apply R7|].
    destruct R7 as [R7|(-> & x & _ & _ & (xd & vals & _ & _ & R8 & _))]; [left; auto|discriminate]. }
  unfold prun_func. destruct (convert_kctx (b_lang P) g a E fs f HS Hf) as (fd' & nd & Hfd' & HK). assert (fd' = fd) by congruence. subst fd'.
  rewrite (arg_buffers P C s HI E f fd nd) by (rewrite Hg; exact HK).
  destruct (cache_key (r_graph P s) E fd sc) as [key|]; [|exact NAT]. destruct (cache_get (r_cache P s) key) as [kern|]; [|exact NAT].
  destruct (in_dec kkey_eq_dec key old) as [Hin|Hin]; [|exact NAT].
  destruct (foreign PyB s kern (f_out fd :: map arg_id (func_args (f_expr fd)))) as [s' o] eqn:EF.
  assert (Hps : forall p, In p (f_out fd :: map arg_id (func_args (f_expr fd))) -> cone g a p /\ valid g p).
  { assert (Hout : f_out fd = f) by (rewrite (kc_fd _ _ _ _ _ HK); reflexivity).
    assert (Hc : forall p, In p (f_out fd :: map arg_id (func_args (f_expr fd))) -> cone g a p).
    { intros p [<-|Hp]; [rewrite Hout; auto|]. apply in_map_iff in Hp as (x & <- & Hx). apply (in_args g f) in Hx. destruct x as [n|d]; cbn.
      - eapply convert_bufs; eauto. apply (bo_lang _ (bk_ok PyB)).
      - eapply cs_cone; [exact HS|]. rewrite Hfs. apply in_or_app. left. exact (cs_topo _ _ _ _ _ HS l1 f l2 Hfs fd Hfd d Hx). }
    intros p Hp. split; auto. eapply cone_lt_graph; eauto. }
  destruct (foreign_py s kern (f_out fd :: map arg_id (func_args (f_expr fd))) s' o HI) with (2 := EF) as (-> & F1 & F2 & F3 & F4 & F5).
  { intros p Hp. rewrite Hg. apply Hps, Hp. }
  exists s', (Throw TypeErr). split; auto. split; auto. split; [congruence|]. split; [intros b Hb; apply F5; intros Hp; apply Hb; apply Hps; auto|].
  split; [intros n; apply good_some; auto|]. right. split; auto. intros ->. destruct Hin.
Qed.

Lemma prun_funcs_py l2 : forall l1 s l, inv P C s -> r_graph P s = g -> fs = l1 ++ l2 -> (forall d, In d l1 -> good P s d) ->
  mapOut (schedule_one P E) l2 = Done l ->
  exists s' oc, prun_funcs PyB old E l s = (s', oc) /\ inv P C s' /\ r_graph P s' = g /\
    (forall b, ~ cone g a b -> r_cpu P s' b = r_cpu P s b) /\ (forall n, good P s n -> good P s' n) /\
    match oc with
    | Done _ => forall d, In d l2 -> good P s' d
    | Throw e => (e = ValueErr /\ exists f idx, In f l2 /\ in_range (shape_of g f) idx /\ t_at (den (b_lang P) g f) idx = Raise) \/ (e = TypeErr /\ old <> [])
    end.
Proof using HC Ha Hnc Hns Hcv HCg.
  induction l2 as [|f l2 IH]; intros l1 s l HI Hg Hfs Hgood HM.
  - injection HM as <-. cbn [prun_funcs]. exists s, (Done tt). split; auto. split; auto. split; auto. split; auto. split; auto. intros d [].
  - cbn [mapOut] in HM. bd HM. destruct v as [fd sc]. bd HM. injection HM as <-. cbn [prun_funcs].
    unfold schedule_one in D. bd D. destruct (E f) as [fd'|] eqn:Ef; [|discriminate]. injection D1 as <-. bd D.
    destruct (forallb _ _) in D; [|discriminate]. injection D as <- <-.
    destruct (prun_func_py s l1 f l2 fd' v0 HI Hg Hfs Hgood Ef D1) as (s1 & oc & HR & HI1 & Hg1 & Hfr & Hmono & Hoc). rewrite HR.
    destruct oc as [u|e].
    + destruct (IH (l1 ++ [f]) s1 v HI1 Hg1) as (s2 & oc & HR2 & HI2 & Hg2 & Hfr2 & Hmono2 & Hoc2).
      { rewrite <- app_assoc. exact Hfs. }
      { intros d Hd. apply in_app_iff in Hd as [Hd|[<-|[]]]; auto. }
      { exact D0. }
      exists s2, oc. split; auto. split; auto. split; auto. split; [intros b Hb; rewrite Hfr2, Hfr; auto|]. split; auto. destruct oc as [u2|e].
      * intros d [<-|Hd]; auto.
      * destruct Hoc2 as [(-> & f' & idx & Q1 & Q2)|Q]; auto. left. split; auto. exists f', idx. split; [now right|auto].
    + exists s1, (Throw e). split; auto. split; auto. split; auto. split; auto. split; auto. destruct Hoc as [(-> & idx & Q1 & Q2)|Q]; auto.
      left. split; auto. exists f, idx. split; [now left|auto].
Qed.
End PyRun.

Lemma schedules_ok w g a E fs : convert_spec (b_lang (bk w)) g a E fs -> exists l, mapOut (schedule_one (bk w) E) fs = Done l.
Proof.
  intros HS. assert (H1 : forall f, In f fs -> exists y, schedule_one (bk w) E f = Done y).
  { intros f Hf. destruct (convert_kctx _ _ a E fs f HS Hf) as (fd & nd & Hfd & HK). unfold schedule_one. rewrite Hfd. cbn [throw_none obind].
    destruct (schedule_cpu_ok fd) as (sc & E1 & _ & _ & H). unfold auto_schedule. rewrite E1. cbn [obind]. rewrite cpu_handles; eauto.
    unfold b_id. destruct (b_copies (bk w)); discriminate. }
  clear - H1. induction fs as [|f fs IH]; cbn; [eauto|]. destruct (H1 f (or_introl eq_refl)) as (y & ->). cbn.
  destruct IH as (ys & ->); [intros; apply H1; now right|]. cbn. eauto.
Qed.

Lemma pmaterialize_ok w old s a b bd : inv (bk w) C s -> valid (r_graph _ s) a -> base (r_graph _ s) a = Some b -> nth_error (r_graph _ s) b = Some bd ->
  (w = CB -> old = []) -> mat_ok (b_lang (bk w)) (r_graph _ s) b -> (forall d, kernel_of (r_graph _ s) a d -> C d) ->
  exists s' oc, pmaterialize w old s a = (s', oc) /\ inv (bk w) C s' /\ r_graph _ s' = r_graph _ s /\
    (forall n, ~ cone (r_graph _ s) b n -> r_cpu _ s' n = r_cpu _ s n) /\ (forall n, good (bk w) s n -> good (bk w) s' n) /\
    (is_const (n_op bd) = true -> s' = s /\ oc = Done tt) /\
    (is_const (n_op bd) = false ->
      match oc with
      | Done _ => good (bk w) s' b
      | Throw e => (e = ValueErr /\ exists n idx, cone (r_graph _ s) b n /\ in_range (shape_of (r_graph _ s) n) idx /\ t_at (den (b_lang (bk w)) (r_graph _ s) n) idx = Raise) \/
                   (e = TypeErr /\ exists n, cone (r_graph _ s) b n /\ refused (bk w) (r_graph _ s) n) \/
                   (e = TypeErr /\ ~ no_scalar_reshape (r_graph _ s) b) \/
                   (e = TypeErr /\ old <> [])
      end).
Proof using HC.
  intros HI Hv Hb Hbd Hold Hm HCd. pose proof (reach_wf _ (i_reach _ _ _ HI)) as Hw. pose proof (bo_lang _ (bk_ok w)) as HL.
  destruct old as [|k0 old0] eqn:EO.
  - rewrite pmaterialize_nil. destruct (materialize_ok (bk w) (bk_ok w) C HC s a b bd HI Hv Hb Hbd Hm HCd) as (s' & oc & M1 & M2 & M3 & M4 & M5 & M6 & M7).
    exists s', oc. split; auto. split; auto. split; auto. split; auto. split; auto. split; auto. intros Hc. specialize (M7 Hc). destruct oc as [u|e]; [apply M7|].
    destruct M7 as [(-> & E & fs & n & idx & _ & _ & Q1 & _ & Q2 & Q3)|[(-> & E & fs & f & fd & x & _ & _ & _ & _ & Q1 & Q2)|(-> & _ & Q)]].
    + left. split; auto. exists n, idx. auto.
    + right. left. split; auto. exists (arg_id x). auto.
    + right. right. left. split; auto. intros Hns. destruct (convert_ok _ HL (r_graph _ s) Hw b bd Hbd Hns) as (E & fs & HCv & _). congruence.
  - destruct w; [|discriminate (Hold eq_refl)]. rewrite <- EO. rewrite (pmat_compute PyB old s a b bd Hw Hb Hv Hbd). destruct (is_const (n_op bd)) eqn:Ec.
    { exists s, (Done tt). split; auto. split; auto. split; auto. split; auto. split; auto. split; auto. discriminate. }
    assert (Hlt : (b < length (r_graph (bk PyB) s))%nat) by (apply nth_error_Some; congruence).
    unfold pcompute. destruct (convert_cases _ HL (r_graph (bk PyB) s) Hw b Hlt) as [Hns|HT].
    2:{ rewrite HT. exists s, (Throw TypeErr). split; auto. split; auto. split; auto. split; auto. split; auto. split; [discriminate|]. intros _. right. right. right. split; auto. rewrite EO. discriminate. }
    destruct (convert_ok _ HL (r_graph (bk PyB) s) Hw b bd Hbd Hns) as (E & fs & HCv & HS). rewrite HCv.
    destruct (schedules_ok PyB _ _ _ _ HS) as (l & Hl). rewrite Hl.
    destruct (prun_funcs_py old (r_graph (bk PyB) s) b bd Hbd Ec Hns E fs HCv) with (l2 := fs) (l1 := @nil nat) (s := s) (l := l)
      as (s' & oc & HR & HI' & Hg & Hfr & Hmono & Hoc); auto.
    { intros f fd sc Hf Hfd Hsc. apply HCd. exists b, bd, E, fs, f, fd, sc. auto 10. }
    { intros d []. }
    exists s', oc. split; auto. split; auto. split; auto. split; auto. split; auto. split; [discriminate|]. intros _. destruct oc as [u|e].
    + apply Hoc. destruct (cs_last _ _ _ _ _ HS) as [l' ->]. apply in_or_app. right. now left.
    + destruct Hoc as [(-> & f & idx & Q1 & Q2 & Q3)|Q]; auto. left. split; auto. exists f, idx. split; auto. eapply cs_cone; eauto.
Qed.

Theorem phist_inv w s old : phist C w s old -> inv (bk w) C s.
Proof using HC.
  induction 1 as [w|w s old c H IH Hc|w s old a H IH Hv Hold Hm HCd|w s old H IH|w w' s old H IH HP].
  - apply inv_init.
  - apply api_call_ok; auto.
  - destruct (base_node (bk w) s a) with (b := match base (r_graph _ s) a with Some b => b | None => 0%nat end) as (bd & Hbd); auto.
    + apply reach_wf, (i_reach _ _ _ IH).
    + destruct (base_total (r_graph (bk w) s) a (reach_wf _ (i_reach _ _ _ IH)) Hv) as (b & -> & _). reflexivity.
    + destruct (base_total (r_graph (bk w) s) a (reach_wf _ (i_reach _ _ _ IH)) Hv) as (b & Hb & _). rewrite Hb in Hbd.
      destruct (pmaterialize_ok w old s a b bd IH Hv Hb Hbd Hold (Hm b Hb) HCd) as (s' & oc & -> & HI' & _). exact HI'.
  - apply reset_ok; auto.
  - apply switch_inv; auto.
Qed.
End Inv.

(* ------------------------------------------------------------------ what holds in every process history *)
Section Any0.
Context (w : which).
Notation B := (bk w).
Lemma foreign_any s kern p0 ps nd s' oc : inv0 B s -> nth_error (r_graph B s) p0 = Some nd -> is_const (n_op nd) = false ->
  foreign w s kern (p0 :: ps) = (s', oc) -> inv0 B s' /\ r_graph B s' = r_graph B s /\ forall n, ~ In n (p0 :: ps) -> r_cpu B s' n = r_cpu B s n.
Proof.
  intros HI Hn Hc HV. pose proof (reach_wf _ (j_reach _ _ HI)) as Hw.
  assert (HM : mem_ok B (r_graph B s) (r_cpu B s)) by (split; [|split]; intros; [eapply j_const|eapply j_len|eapply j_new]; eauto).
  assert (GO : forall m t, mem_ok B (r_graph B s) m -> r_graph B t = r_graph B s -> r_cache B t = r_cache B s -> r_cpu B t = m -> inv0 B t).
  { intros m t H1 H2 H3 H4. eapply inv0_mem; eauto; [rewrite H3; apply HI|now rewrite H4]. }
  destruct w; unfold foreign in HV; cbn [r_graph r_cpu] in HV.
  - destruct (zero_fill (bk PyB) (r_graph (bk PyB) s) (p0 :: ps) (r_cpu (bk PyB) s)) as [m|e] eqn:EZ.
    + pose proof (zero_fill_mem (bk PyB) _ _ Hw _ _ HM EZ) as HM1. pose proof (zero_fill_other (bk PyB) _ _ _ _ EZ) as HO1. injection HV as <- _.
      split; [eapply GO; eauto|]; cbn; auto.
    + injection HV as <- _. split; [eapply GO; eauto|]; cbn; auto.
  - destruct (zero_fill (bk CB) (r_graph (bk CB) s) (p0 :: ps) (r_cpu (bk CB) s)) as [m|e] eqn:EZ; [|injection HV as <- _; split; [eapply GO; eauto|]; cbn; auto].
    pose proof (zero_fill_mem (bk CB) _ _ Hw _ _ HM EZ) as HM1. pose proof (zero_fill_other (bk CB) _ _ _ _ EZ) as HO1.
    assert (STOP : forall o, (set_cpu (bk CB) (mkRt (bk CB) (r_graph _ s) (r_cpu _ s) (r_cache _ s) (r_tmp _ s) (S (r_runs _ s))) m, o) = (s', oc) -> inv0 (bk CB) s' /\ r_graph (bk CB) s' = r_graph (bk CB) s /\ forall n, ~ In n (p0 :: ps) -> r_cpu (bk CB) s' n = r_cpu (bk CB) s n).
    { intros o H. injection H as <- _. split; [eapply GO; eauto|]; cbn; auto. }
    destruct (copy_in (bk CB) (r_graph (bk CB) s) (p0 :: ps) m) as [cs|e] eqn:EC; [|eapply STOP; eauto].
    destruct (mixed kern cs) as [out|e]; [|eapply STOP; eauto]. destruct cs as [|c0 cs]; [eapply STOP; eauto|]. rewrite Hn in HV. injection HV as <- _.
    cbn [set_cpu r_graph r_cpu]. split; [eapply GO with (m := sset m p0 (as_array (n_dtype nd) (length c0) out)); cbn; auto|split; [auto|]].
    + destruct HM1 as (M1 & M2 & M3). unfold sset. split; [|split].
      * intros n nd' vals H1 H2. destruct (Nat.eqb_spec p0 n) as [<-|]; [|eapply M1; eauto]. rewrite Hn in H1. injection H1 as <-. rewrite H2 in Hc. discriminate.
      * intros n nd' vs H1 H2. destruct (Nat.eqb_spec p0 n) as [<-|]; [|eapply M2; eauto]. injection H2 as <-. assert (nd' = nd) by congruence. subst.
        cbn [copy_in] in EC. unfold get in EC. rewrite Hn in EC. cbn [obind] in EC. destruct (m p0) as [vs0|] eqn:Ep0; [|discriminate]. cbn [throw_none obind] in EC.
        destruct (forallb _ vs0); [|discriminate]. bd EC. injection EC as <- _. unfold as_array. rewrite map_length, firstn_length, app_length, repeat_length, map_length.
        rewrite Nat.min_l by lia. eapply M2; eauto.
      * intros n Hnn. destruct (Nat.eqb_spec p0 n) as [<-|]; [congruence|]. now apply M3.
    + intros n Hnn. unfold sset. destruct (Nat.eqb_spec p0 n) as [<-|]; [exfalso; apply Hnn; now left|]. auto.
Qed.
Lemma prun_func_any old E fd sc s s' oc nd : inv0 B s -> nth_error (r_graph B s) (f_out fd) = Some nd -> is_const (n_op nd) = false ->
  prun_func w old E fd sc s = (s', oc) -> inv0 B s' /\ r_graph B s' = r_graph B s.
Proof.
  intros HI Hn Hc HR. assert (NAT : run_func B E fd sc s = (s', oc) -> inv0 B s' /\ r_graph B s' = r_graph B s) by (intros H; edestruct run_func_any as (A & A2 & _); eauto).
  unfold prun_func in HR. destruct (mapOut _ _) as [bufs|]; auto. destruct (cache_key _ _ _ _) as [key|]; auto. destruct (cache_get _ _) as [kern|]; auto.
  destruct (in_dec _ _ _); auto. edestruct foreign_any as (A & A2 & _); eauto.
Qed.
Lemma prun_funcs_any old E l : forall s s' oc, inv0 B s -> (forall fd sc, In (fd, sc) l -> exists nd, nth_error (r_graph B s) (f_out fd) = Some nd /\ is_const (n_op nd) = false) ->
  prun_funcs w old E l s = (s', oc) -> inv0 B s' /\ r_graph B s' = r_graph B s.
Proof.
  induction l as [|[fd sc] l IH]; intros s s' oc HI HF HR; cbn [prun_funcs] in HR; [injection HR as <- _; auto|].
  destruct (HF fd sc (or_introl eq_refl)) as (nd & Hn & Hc). destruct (prun_func w old E fd sc s) as [s1 oc1] eqn:E1.
  destruct (prun_func_any _ _ _ _ _ _ _ _ HI Hn Hc E1) as (H1 & H2).
  destruct oc1; [|injection HR as <- _; auto]. destruct (IH s1 s' oc H1) as (H3 & H4); auto; [|split; [auto|congruence]].
  intros fd' sc' Hin. rewrite H2. apply (HF fd' sc'). now right.
Qed.
Lemma pmaterialize_any old s a : inv0 B s -> valid (r_graph B s) a -> inv0 B (fst (pmaterialize w old s a)) /\ r_graph B (fst (pmaterialize w old s a)) = r_graph B s.
Proof.
  intros HI Ha. pose proof (reach_wf _ (j_reach _ _ HI)) as Hw. pose proof (bo_lang _ (bk_ok w)) as HL.
  destruct (base_total _ a Hw Ha) as (b & Hb & Hle & Hvw).
  destruct (nth_error (r_graph B s) b) as [bd|] eqn:Hbd; [|apply nth_error_None in Hbd; unfold valid in Ha; lia].
  rewrite (pmat_compute w old s a b bd Hw Hb Ha Hbd). destruct (is_const (n_op bd)) eqn:Ec; [auto|].
  unfold pcompute. destruct (convert (r_graph B s) b) as [[E fs]|e] eqn:Ecv; [|auto].
  destruct (mapOut (schedule_one B E) fs) as [l|e] eqn:EM; [|auto].
  destruct (prun_funcs w old E l s) as [s' oc] eqn:ER.
  destruct (convert_cases _ HL _ Hw b) as [Hns|HT]; [unfold valid in Ha; lia| |congruence].
  assert (Hvb : valid (r_graph B s) b) by (unfold valid in *; lia).
  pose proof (convert_inv _ _ _ _ _ HL (j_reach _ _ HI) Hvb Hns Ecv) as HS.
  assert (HX : forall fd sc, In (fd, sc) l -> exists f, In f fs /\ E f = Some fd).
  { intros fd sc Hin. clear - EM Hin. revert l EM Hin. induction fs as [|f fs IH]; intros l EM Hin; cbn in EM; [injection EM as <-; destruct Hin|].
    bd EM. bd EM. injection EM as <-. destruct Hin as [->|Hin].
    - exists f. split; [now left|]. unfold schedule_one in D. destruct (E f); [|discriminate]. cbn in D. bd D. destruct (forallb _ _); [|discriminate]. injection D as -> _. reflexivity.
    - destruct (IH _ D0 Hin) as (f' & H1 & H2). exists f'. split; [now right|auto]. }
  cbn [fst]. eapply prun_funcs_any; eauto.
  intros fd sc Hin. destruct (HX fd sc Hin) as (f & Hf & HEf). destruct (cs_entry _ _ _ _ _ HS f Hf) as (fd' & Hfd' & (nd & Hnd & Heq & _)). assert (fd' = fd) by congruence. subst fd'.
  rewrite Heq. cbn. exists nd. split; auto. destruct (cs_keep _ _ _ _ _ HS f Hf) as [->|(nd' & Hnd' & Hk & _)]; congruence.
Qed.
End Any0.
Lemma switch_inv0 w w' s : inv0 (bk w) s -> inv0 (bk w') (switch w w' s).
Proof.
  intros [H1 H2 H3 H4 H5]. split; cbn [switch r_graph r_cpu r_cache]; auto.
  - intros n nd vals Hn Hop. rewrite (H2 n nd vals Hn Hop). cbn [option_map]. rewrite map_map. f_equal. apply map_ext. apply conv_num.
  - intros n nd vs Hn Hvs. destruct (r_cpu (bk w) s n) as [ws|] eqn:Ew; [|discriminate]. cbn in Hvs. injection Hvs as <-. rewrite map_length. eauto.
  - intros n Hn. now rewrite (H4 n Hn).
Qed.
Theorem pany_inv0 w s old : pany w s old -> inv0 (bk w) s.
Proof.
  induction 1 as [w|w s old c H IH Hc|w s old a H IH Hv|w s old H IH|w w' s old H IH].
  - split; cbn; try discriminate; auto; [constructor|intros [|n] ? ? ?; discriminate].
  - now apply api_call_any.
  - now apply pmaterialize_any.
  - destruct IH as [H1 H2 H3 H4 H5]. split; cbn; auto. discriminate.
  - now apply switch_inv0.
Qed.
(* forgetting the kernels restores the full invariant, whatever happened: always in Python, in C when no
   integer array's list holds a float *)
Lemma pany_reset C w s old : pany w s old -> (w = CB -> portable w w s) -> inv (bk w) C (reset_cache (bk w) s).
Proof.
  intros Hs HP. destruct (pany_inv0 w s old Hs) as [H1 H2 H3 H4 H5]. split; cbn [reset_cache r_graph r_cpu r_cache cache_get]; auto; [|discriminate].
  intros n nd vs Hn Hc Hv. split; [eapply H3; eauto|]. destruct w; [apply forallb_forall; reflexivity|].
  pose proof (HP eq_refl n nd vs Hn Hc Hv) as H. unfold conv in H. rewrite map_id in H. exact H.
Qed.
End Switch.
