(* The code generator as an object that lives as long as the backend (backend.py:67-77): its indentation
   level and temporary counter survive from one codegen() call to the next, also when a call raises. *)
From Coq Require Import String Ascii.
From Verif Require Import Base BaseFacts Util Lang Spec Graph Algo AlgoSem Kernel Sched Codegen Backends Text TextPrint TextParse.
Open Scope string_scope.
Open Scope Z_scope.
Open Scope list_scope.

(* codegen.py:10-12, 21-24: the attributes of the object *)
Record ob := mkOb { ob_buf : list string; ob_ind : Z; ob_tmp : nat }.
(* a method: what it does to the object, and whether it returns or raises *)
Definition meth (A : Type) : Type := ob -> ob * outcome A.
Definition ret {A} (x : A) : meth A := fun o => (o, Done x).
Definition raise {A} (e : exn) : meth A := fun o => (o, Throw e).
Definition seq {A B} (m : meth A) (f : A -> meth B) : meth B := fun o => match m o with (o1, Done x) => f x o1 | (o1, Throw e) => (o1, Throw e) end.
Notation "x <! m ;; f" := (seq m (fun x => f)) (at level 61, m at next level, right associativity).
Notation "' p <! m ;; f" := (seq m (fun p => f)) (at level 61, p pattern, m at next level, right associativity).
Notation "m !; f" := (seq m (fun _ => f)) (at level 61, right associativity).
Definition lift {A} (x : outcome A) : meth A := match x with Done v => ret v | Throw e => raise e end.
(* codegen.py:26-27 *)
Definition o_nest : meth unit := fun o => (mkOb (ob_buf o) (ob_ind o + 1) (ob_tmp o), Done tt).
Definition o_unnest : meth unit := fun o => (mkOb (ob_buf o) (ob_ind o - 1) (ob_tmp o), Done tt).
(* codegen.py:28-33 ("x" * n is "" for n < 0) *)
Definition o_writeln (ln : string) : meth unit := fun o => (mkOb (ob_buf o ++ [times (Z.to_nat (ob_ind o)) indent_str +++ ln]) (ob_ind o) (ob_tmp o), Done tt).
Fixpoint o_write (lns : list string) : meth unit := match lns with [] => ret tt | l :: r => o_writeln l !; o_write r end.
(* codegen.py:34-37 *)
Definition o_tmpvar : meth string := fun o => (mkOb (ob_buf o) (ob_ind o) (S (ob_tmp o)), Done ("tmp" +++ decn (ob_tmp o))).
(* for x in l: m x *)
Fixpoint each {A} (m : A -> meth unit) (l : list A) : meth unit := match l with [] => ret tt | x :: r => m x !; each m r end.

Section Obj.
Context (b : backend) (g : graph) (E : fenv).
(* codegen.py:121-254 *)
Fixpoint o_render (args : list (string * arg)) (e : expr) (dt : dtype) : meth string :=
  let many := fix many (l : list expr) : meth (list string) :=
    match l with [] => ret [] | x :: l' => v <! o_render args x Int64 ;; vs <! many l' ;; ret (v :: vs) end in
  match e with
  | EIdx l => ret (pname (lname l))                                                 (* :129 *)
  | EConst z => ret (dec z)                                                         (* :130 *)
  | EUn u x =>                                                                      (* :133-147 *)
      r <! o_render args x dt ;; tmp <! o_tmpvar ;; o_write [init b dt tmp (t_un b u r)] !; ret tmp
  | EBin o x y =>                                                                   (* :149-171 *)
      l <! o_render args x dt ;; r <! o_render args y dt ;; tmp <! o_tmpvar ;; o_write [init b dt tmp (t_bin b o l r)] !; ret tmp
  | EWhere c t f =>                                                                 (* :173-203 *)
      tmp <! o_tmpvar ;; o_write [init b dt tmp (if is_int dt then "0" else "0.0")] !;
      cond <! o_render args c Int64 ;;
      o_write [if_start b cond] !; o_nest !;
      tv <! o_render args t dt ;; o_write [assign b tmp tv] !; o_unnest !;
      o_write [else_ b] !; o_nest !;
      fv <! o_render args f dt ;; o_write [assign b tmp fv] !; o_unnest !;
      o_write [if_end b] !; ret tmp
  | ESum x red =>                                                                   (* :207-228 *)
      o_write [init b dt "acc" "0"] !;
      each (fun l => o_write [sequential_loop_start b (pname (lname l)) "0" (dec (l_ext l)) "1"] !; o_nest) red !;
      r <! o_render args x dt ;;
      o_write [assign b "acc" (t_bin b BAdd "acc" r)] !;
      each (fun _ => o_unnest !; o_write [loop_end b]) red !; ret "acc"
  | EBuf n idx =>                                                                   (* :230-244 *)
      buf <! lift (throw_none InternalErr (find_arg (ABuf n) args)) ;; nd <! lift (get g n) ;;
      names <! many idx ;;
      let terms := map (fun '(x, st) => t_bin b BMul x (dec st)) (filter (fun '(_, st) => negb (st =? 0)) (combine names (n_strides nd))) in
      let flat := match terms with [] => dec (n_offset nd) | _ => reduce_add b (dec (n_offset nd) :: terms) end in
      ret (index buf flat)
  | EFunc f idx =>                                                                  (* :246-254 *)
      fnc <! lift (throw_none InternalErr (find_arg (AFnc f) args)) ;; fd <! lift (throw_none InternalErr (E f)) ;;
      names <! many idx ;;
      ret (index fnc (arr_idx_calc_expr b (f_shape fd) names))
  end.
(* codegen.py:87-112 *)
Fixpoint o_loops (loops : list loopsched) : meth nat :=
  match loops with
  | [] => ret 0%nat
  | l :: r =>
      if is_spatial l then
        '(lns, looped) <! lift (loop_start b (ls_exec l) (pname (lv_name (ls_lv l))) (dec (lv_ext (ls_lv l)))) ;;
        o_write lns !; (if looped : bool then o_nest else ret tt) !;
        k <! o_loops r ;; ret (if looped then S k else k)
      else o_loops r
  end.
(* codegen.py:114-117 *)
Fixpoint o_loop_finish (k : nat) : meth unit := match k with O => ret tt | S k => o_unnest !; o_write [loop_end b] !; o_loop_finish k end.
(* codegen.py:59-60 *)
Definition o_splits (sps : list splitloop) : meth unit :=
  each (fun sp => o_write [init b Int64 (pname (lv_name (sp_orig sp)))
    (t_bin b BAdd (t_bin b BMul (pname (lv_name (sp_o sp))) (dec (sp_factor sp))) (pname (lv_name (sp_i sp))))]) sps.
(* codegen.py:62-68 *)
Definition o_guards (sps : list splitloop) : meth unit :=
  each (fun sp => if sp_guard sp then
    o_write [if_start b (t_bin b BLe (dec (lv_ext (sp_orig sp))) (pname (lv_name (sp_orig sp))))] !; o_nest !;
    o_write [return_function b] !; o_unnest !; o_write [if_end b]
    else ret tt) sps.
(* codegen.py:43-79 *)
Definition o_codegen (kname : string) (inputs : list arg) (f : func) (sc : schedule) : meth string :=
  (fun o => (mkOb [] (ob_ind o) (ob_tmp o), Done tt)) !;                            (* :44 *)
  o_write (map (import_lib b) (default_library b)) !;                               (* :47 *)
  let args := named_args inputs 0 in
  ts <! lift (arg_types g E inputs) ;;                                              (* :49-52 *)
  o_write [kern_start b kname ("out" :: map fst args) (f_dtype f :: ts)] !; o_nest !; (* :53-54 *)
  cnt <! o_loops (s_loops sc) ;;
  o_splits (s_splits sc) !; o_guards (s_splits sc) !;
  result <! o_render args (f_expr f) (f_dtype f) ;;
  let idx := arr_idx_calc_expr b (f_shape f) (map (fun l => pname (lname l)) (f_loops f)) in
  o_write [assign b (index "out" idx) result] !;
  o_loop_finish cnt !; o_unnest !; o_write [kern_end b] !;
  (fun o => (o, Done (join nl (ob_buf o)))).
End Obj.

(* a codegen() request, and the life of one generator object; __init__: codegen.py:10-12, 21-24 *)
Record request := mkReq { q_graph : graph; q_env : fenv; q_name : string; q_inputs : list arg; q_func : func; q_sched : schedule }.
Definition answer (b : backend) (q : request) : meth string := o_codegen b (q_graph q) (q_env q) (q_name q) (q_inputs q) (q_func q) (q_sched q).
Fixpoint session (b : backend) (qs : list request) (o : ob) : ob * list (outcome string) :=
  match qs with [] => (o, []) | q :: r => let (o1, x) := answer b q o in let (o2, xs) := session b r o1 in (o2, x :: xs) end.
Definition new_generator : ob := mkOb [] 0 0.

(* ------------------------------------------------------------------ the object at indentation d against the generator at 0 *)
Definition shift (d : nat) (x : string) : string := times d indent_str +++ x.
Record rel (d : nat) (s : gst) (o : ob) : Prop := { rl_ind : ob_ind o = Z.of_nat (d + g_ind s); rl_tmp : ob_tmp o = g_tmp s; rl_buf : ob_buf o = map (shift d) (g_buf s) }.
Lemma sapp_assoc' a c e : (a +++ c) +++ e = a +++ (c +++ e).
Proof. induction a; cbn; auto. now rewrite IHa. Qed.
Lemma times_add d i s : times (d + i) s = times d s +++ times i s.
Proof. induction d; cbn; auto. now rewrite IHd, sapp_assoc'. Qed.
(* a method does what the generator does *)
Definition same (d : nat) (m : meth unit) (f : gst -> gst) : Prop := forall s o, rel d s o -> exists o', m o = (o', Done tt) /\ rel d (f s) o'.
Definition sim (d : nat) {A} (m : meth A) (f : gst -> outcome (A * gst)) : Prop := forall s o, rel d s o ->
  match f s with
  | Done (x, s') => exists o', m o = (o', Done x) /\ rel d s' o' /\ g_ind s' = g_ind s
  | Throw e => exists o', m o = (o', Throw e) /\ ob_ind o <= ob_ind o'
  end.
Lemma write_same d lns : same d (o_write lns) (write lns).
Proof.
  induction lns as [|x r IH]; intros s o HR; cbn [o_write].
  - exists o. split; [reflexivity|exact HR].
  - unfold seq, o_writeln. cbn [ob_ind ob_tmp ob_buf]. destruct (IH (writeln x s) (mkOb (ob_buf o ++ [times (Z.to_nat (ob_ind o)) indent_str +++ x]) (ob_ind o) (ob_tmp o))) as (o' & H1 & H2).
    + destruct HR as [H1 H2 H3]. split; cbn; auto. rewrite map_app, H3. cbn. unfold shift at 2. do 2 f_equal. rewrite H1, Nat2Z.id, times_add. now rewrite sapp_assoc'.
    + exists o'. split; [exact H1|exact H2].
Qed.
Lemma write_ind lns s : g_ind (write lns s) = g_ind s.
Proof. now rewrite write_lines. Qed.
Lemma nest_ind s : g_ind (nest s) = S (g_ind s).
Proof. reflexivity. Qed.
Lemma unnest_ind s : g_ind (unnest s) = (g_ind s - 1)%nat.
Proof. cbn. lia. Qed.
Lemma nest_same d : same d o_nest nest.
Proof. intros s o [H1 H2 H3]. eexists. split; [reflexivity|]. split; cbn; auto. rewrite H1. lia. Qed.
Lemma unnest_same d s o : rel d s o -> (0 < g_ind s)%nat -> exists o', o_unnest o = (o', Done tt) /\ rel d (unnest s) o'.
Proof. intros [H1 H2 H3] Hp. eexists. split; [reflexivity|]. split; cbn; auto. rewrite H1. lia. Qed.
Lemma tmpvar_same d s o : rel d s o -> exists o', o_tmpvar o = (o', Done (fst (tmpvar s))) /\ rel d (snd (tmpvar s)) o'.
Proof. intros [H1 H2 H3]. eexists. split; [unfold o_tmpvar; rewrite H2; reflexivity|]. split; cbn; auto. Qed.
Lemma rel_ind d s o s' o' : rel d s o -> rel d s' o' -> (g_ind s <= g_ind s')%nat -> ob_ind o <= ob_ind o'.
Proof. intros [H _ _] [H' _ _] Hl. rewrite H, H'. lia. Qed.

Ltac inds := repeat (rewrite write_ind || rewrite nest_ind || rewrite unnest_ind).
Lemma seq_ok {A B} {m : meth A} {f : A -> meth B} {o o1 x} : m o = (o1, Done x) -> seq m f o = f x o1.
Proof. unfold seq. now intros ->. Qed.
Lemma seq_no {A B} {m : meth A} {f : A -> meth B} {o o1 e} : m o = (o1, Throw e) -> seq m f o = (o1, Throw e).
Proof. unfold seq. now intros ->. Qed.
Lemma seq_ret {A B} (x : A) (f : A -> meth B) o : seq (ret x) f o = f x o.
Proof. reflexivity. Qed.
Lemma each_open d b red : forall s o, rel d s o ->
  exists o', each (fun l => o_write [sequential_loop_start b (pname (lname l)) "0" (dec (l_ext l)) "1"] !; o_nest) red o = (o', Done tt) /\
    rel d (fold_left (fun s l => nest (write [sequential_loop_start b (pname (lname l)) "0" (dec (l_ext l)) "1"] s)) red s) o'.
Proof.
  induction red as [|l r IH]; intros s o HR; cbn [each fold_left]; [exists o; split; [reflexivity|exact HR]|].
  unfold seq at 1. destruct (write_same d [sequential_loop_start b (pname (lname l)) "0" (dec (l_ext l)) "1"] s o HR) as (o1 & W & HR1). unfold seq. rewrite W.
  destruct (nest_same d _ _ HR1) as (o2 & W2 & HR2). rewrite W2. apply IH. exact HR2.
Qed.
Lemma each_close d b {A} (red : list A) : forall s o, rel d s o -> (length red <= g_ind s)%nat ->
  exists o', each (fun _ => o_unnest !; o_write [loop_end b]) red o = (o', Done tt) /\ rel d (fold_left (fun s _ => write [loop_end b] (unnest s)) red s) o'.
Proof.
  induction red as [|l r IH]; intros s o HR Hl; cbn [each fold_left]; [exists o; split; [reflexivity|exact HR]|]. cbn in Hl.
  destruct (unnest_same d s o HR ltac:(lia)) as (o1 & W & HR1). unfold seq at 1 2. rewrite W.
  destruct (write_same d [loop_end b] _ _ HR1) as (o2 & W2 & HR2). rewrite W2. apply IH; [exact HR2|]. inds. lia.
Qed.

Section Sim.
Context (b : backend) (g : graph) (E : fenv) (d : nat) (args : list (string * arg)).
Definition o_many := fix many (l : list expr) : meth (list string) :=
    match l with [] => ret [] | x :: l' => v <! o_render b g E args x Int64 ;; vs <! many l' ;; ret (v :: vs) end.
Definition t_many := fix many (l : list expr) (s : gst) : outcome (list string * gst) :=
    match l with
    | [] => Done ([], s)
    | x :: l' => '(v, s1) <~ t_render b g E args x Int64 s ;; '(vs, s2) <~ many l' s1 ;; Done (v :: vs, s2)
    end.
Lemma o_many_cons x l : o_many (x :: l) = (v <! o_render b g E args x Int64 ;; vs <! o_many l ;; ret (v :: vs)).
Proof. reflexivity. Qed.
Lemma t_many_cons x l s : t_many (x :: l) s = ('(v, s1) <~ t_render b g E args x Int64 s ;; '(vs, s2) <~ t_many l s1 ;; Done (v :: vs, s2)).
Proof. reflexivity. Qed.
Lemma many_sim idx : Forall (fun x => forall dt, sim d (o_render b g E args x dt) (t_render b g E args x dt)) idx -> sim d (o_many idx) (t_many idx).
Proof.
  induction 1 as [|x l Hx _ IH]; intros s o HR.
  - exists o. split; [reflexivity|]. split; auto.
  - rewrite o_many_cons, t_many_cons. specialize (Hx Int64 s o HR). destruct (t_render b g E args x Int64 s) as [[v s1]|e]; cbn [obind].
    + destruct Hx as (o1 & H1 & R1 & I1). specialize (IH s1 o1 R1).
      destruct (t_many l s1) as [[vs s2]|e]; cbn [obind].
      * destruct IH as (o2 & H2 & R2 & I2). exists o2. unfold seq. rewrite H1, H2. split; [reflexivity|]. split; [exact R2|congruence].
      * destruct IH as (o2 & H2 & L2). exists o2. unfold seq. rewrite H1, H2. split; [reflexivity|]. pose proof (rel_ind d s o s1 o1 HR R1 ltac:(lia)). lia.
    + destruct Hx as (o1 & H1 & L1). exists o1. unfold seq. rewrite H1. split; auto.
Qed.

Theorem render_sim e : forall dt, sim d (o_render b g E args e dt) (t_render b g E args e dt).
Proof.
  induction e using expr_ind'; intros dt s o HR; cbn [o_render t_render].
  - exists o. split; [reflexivity|]. split; auto.
  - exists o. split; [reflexivity|]. split; auto.
  - specialize (IHe1 dt s o HR). destruct (t_render b g E args e1 dt s) as [[l s1]|e]; cbn [obind].
    2:{ destruct IHe1 as (o1 & H1 & L1). exists o1. rewrite (seq_no H1). auto. }
    destruct IHe1 as (o1 & H1 & R1 & I1). rewrite (seq_ok H1). specialize (IHe2 dt s1 o1 R1). destruct (t_render b g E args e2 dt s1) as [[r s2]|e]; cbn [obind].
    2:{ destruct IHe2 as (o2 & H2 & L2). exists o2. rewrite (seq_no H2). pose proof (rel_ind d s o s1 o1 HR R1 ltac:(lia)). split; [auto|lia]. }
    destruct IHe2 as (o2 & H2 & R2 & I2). rewrite (seq_ok H2). destruct (tmpvar_same d s2 o2 R2) as (o3 & H3 & R3). rewrite (seq_ok H3).
    destruct (tmpvar s2) as [tmp s3] eqn:Et. cbn [fst snd] in *. assert (I3 : g_ind s3 = g_ind s2) by (injection Et as _ <-; reflexivity).
    destruct (write_same d [init b dt tmp (t_bin b b0 l r)] s3 o3 R3) as (o4 & H4 & R4). rewrite (seq_ok H4). exists o4. split; [reflexivity|]. split; [exact R4|]. inds. congruence.
  - specialize (IHe dt s o HR). destruct (t_render b g E args e dt s) as [[l s1]|e']; cbn [obind].
    2:{ destruct IHe as (o1 & H1 & L1). exists o1. rewrite (seq_no H1). auto. }
    destruct IHe as (o1 & H1 & R1 & I1). rewrite (seq_ok H1). destruct (tmpvar_same d s1 o1 R1) as (o3 & H3 & R3). rewrite (seq_ok H3).
    destruct (tmpvar s1) as [tmp s3] eqn:Et. cbn [fst snd] in *. assert (I3 : g_ind s3 = g_ind s1) by (injection Et as _ <-; reflexivity).
    destruct (write_same d [init b dt tmp (t_un b u l)] s3 o3 R3) as (o4 & H4 & R4). rewrite (seq_ok H4). exists o4. split; [reflexivity|]. split; [exact R4|]. inds. congruence.
  - destruct (tmpvar_same d s o HR) as (o1 & H1 & R1). rewrite (seq_ok H1). destruct (tmpvar s) as [tmp s1] eqn:Et. cbn [fst snd] in *.
    assert (I1 : g_ind s1 = g_ind s) by (injection Et as _ <-; reflexivity).
    match goal with |- context [write ?x s1] => destruct (write_same d x s1 o1 R1) as (o2 & H2 & R2); rewrite (seq_ok H2); set (s2 := write x s1) in * end.
    assert (I2 : g_ind s2 = g_ind s) by (unfold s2; inds; exact I1).
    specialize (IHe1 Int64 s2 o2 R2). destruct (t_render b g E args e1 Int64 s2) as [[cond s3]|er]; cbn [obind].
    2:{ destruct IHe1 as (o3 & H3 & L3). exists o3. rewrite (seq_no H3). pose proof (rel_ind d s o s2 o2 HR R2 ltac:(lia)). split; [auto|lia]. }
    destruct IHe1 as (o3 & H3 & R3 & I3). rewrite (seq_ok H3).
    destruct (write_same d [if_start b cond] s3 o3 R3) as (o4 & H4 & R4). rewrite (seq_ok H4).
    destruct (nest_same d _ _ R4) as (o5 & H5 & R5). rewrite (seq_ok H5). set (s5 := nest (write [if_start b cond] s3)) in *.
    assert (I5 : g_ind s5 = S (g_ind s)) by (unfold s5; inds; congruence).
    specialize (IHe2 dt s5 o5 R5). destruct (t_render b g E args e2 dt s5) as [[tv s6]|er]; cbn [obind].
    2:{ destruct IHe2 as (o6 & H6 & L6). exists o6. rewrite (seq_no H6). pose proof (rel_ind d s o s5 o5 HR R5 ltac:(lia)). split; [auto|lia]. }
    destruct IHe2 as (o6 & H6 & R6 & I6). rewrite (seq_ok H6).
    destruct (write_same d [assign b tmp tv] s6 o6 R6) as (o7 & H7 & R7). rewrite (seq_ok H7).
    destruct (unnest_same d _ _ R7 ltac:(inds; lia)) as (o8 & H8 & R8). rewrite (seq_ok H8).
    destruct (write_same d [else_ b] _ _ R8) as (o9 & H9 & R9). rewrite (seq_ok H9).
    destruct (nest_same d _ _ R9) as (o10 & H10 & R10). rewrite (seq_ok H10). set (s10 := nest (write [else_ b] (unnest (write [assign b tmp tv] s6)))) in *.
    assert (I10 : g_ind s10 = S (g_ind s)) by (unfold s10; inds; inds; lia).
    specialize (IHe3 dt s10 o10 R10). destruct (t_render b g E args e3 dt s10) as [[fv s11]|er]; cbn [obind].
    2:{ destruct IHe3 as (o11 & H11 & L11). exists o11. rewrite (seq_no H11). pose proof (rel_ind d s o s10 o10 HR R10 ltac:(lia)). split; [auto|lia]. }
    destruct IHe3 as (o11 & H11 & R11 & I11). rewrite (seq_ok H11).
    destruct (write_same d [assign b tmp fv] s11 o11 R11) as (o12 & H12 & R12). rewrite (seq_ok H12).
    destruct (unnest_same d _ _ R12 ltac:(inds; lia)) as (o13 & H13 & R13). rewrite (seq_ok H13).
    destruct (write_same d [if_end b] _ _ R13) as (o14 & H14 & R14). rewrite (seq_ok H14).
    exists o14. split; [reflexivity|]. split; [exact R14|]. inds. inds. lia.
  - destruct (write_same d [init b dt "acc" "0"] s o HR) as (o1 & H1 & R1). rewrite (seq_ok H1).
    destruct (each_open d b red _ _ R1) as (o2 & H2 & R2). rewrite (seq_ok H2).
    rewrite open_eq, write_ind in *. set (s2 := mkG _ (g_ind s + length red) _) in *.
    specialize (IHe dt s2 o2 R2). destruct (t_render b g E args e dt s2) as [[r s3]|er]; cbn [obind].
    2:{ destruct IHe as (o3 & H3 & L3). exists o3. rewrite (seq_no H3). pose proof (rel_ind d s o s2 o2 HR R2 ltac:(cbn; lia)). split; [auto|lia]. }
    destruct IHe as (o3 & H3 & R3 & I3). rewrite (seq_ok H3).
    destruct (write_same d [assign b "acc" (t_bin b BAdd "acc" r)] s3 o3 R3) as (o4 & H4 & R4). rewrite (seq_ok H4).
    destruct (each_close d b red _ _ R4 ltac:(inds; rewrite I3; cbn; lia)) as (o5 & H5 & R5). rewrite (seq_ok H5).
    exists o5. split; [reflexivity|]. split; [exact R5|]. rewrite (close_eq b red _ (g_ind s)) by (inds; rewrite I3; reflexivity). reflexivity.
  - fold o_many. fold t_many.
    destruct (throw_none InternalErr (find_arg (AFnc f) args)) as [fnc|er]; [|exists o; split; [reflexivity|lia]]. cbn [obind lift]. rewrite seq_ret.
    destruct (throw_none InternalErr (E f)) as [fd|er]; [|exists o; split; [reflexivity|lia]]. cbn [obind lift]. rewrite seq_ret.
    pose proof (many_sim idx H s o HR) as HM. destruct (t_many idx s) as [[names s1]|er]; cbn [obind].
    + destruct HM as (o1 & H1 & R1 & I1). exists o1. unfold seq. rewrite H1. auto.
    + destruct HM as (o1 & H1 & L1). exists o1. unfold seq. rewrite H1. auto.
  - fold o_many. fold t_many.
    destruct (throw_none InternalErr (find_arg (ABuf n) args)) as [fnc|er]; [|exists o; split; [reflexivity|lia]]. cbn [obind lift]. rewrite seq_ret.
    destruct (get g n) as [fd|er]; [|exists o; split; [reflexivity|lia]]. cbn [obind lift]. rewrite seq_ret.
    pose proof (many_sim idx H s o HR) as HM. destruct (t_many idx s) as [[names s1]|er]; cbn [obind].
    + destruct HM as (o1 & H1 & R1 & I1). exists o1. unfold seq. rewrite H1. auto.
    + destruct HM as (o1 & H1 & L1). exists o1. unfold seq. rewrite H1. auto.
Qed.

Lemma loops_sim loops : forall s o, rel d s o ->
  match t_loops b loops s with
  | Done (k, s') => exists o', o_loops b loops o = (o', Done k) /\ rel d s' o' /\ g_ind s' = (g_ind s + k)%nat
  | Throw e => exists o', o_loops b loops o = (o', Throw e) /\ ob_ind o <= ob_ind o'
  end.
Proof.
  induction loops as [|l r IH]; intros s o HR; cbn [t_loops o_loops].
  - exists o. split; [reflexivity|]. split; [exact HR|lia].
  - destruct (is_spatial l); [|apply IH; exact HR].
    destruct (loop_start b (ls_exec l) (pname (lv_name (ls_lv l))) (dec (lv_ext (ls_lv l)))) as [[lns looped]|er]; [|exists o; split; [reflexivity|lia]].
    cbn [obind lift]. rewrite seq_ret. destruct (write_same d lns s o HR) as (o1 & H1 & R1). rewrite (seq_ok H1).
    assert (HX : exists o2, (if looped : bool then o_nest else ret tt) o1 = (o2, Done tt) /\ rel d (if looped then nest (write lns s) else write lns s) o2 /\
       g_ind (if looped then nest (write lns s) else write lns s) = (g_ind s + if looped then 1 else 0)%nat).
    { destruct looped.
      - destruct (nest_same d _ _ R1) as (o2 & H2 & R2). exists o2. split; auto. split; auto. inds. lia.
      - exists o1. split; [reflexivity|]. split; auto. inds. lia. }
    destruct HX as (o2 & H2 & R2 & I2). rewrite (seq_ok H2). set (s2 := if looped then nest (write lns s) else write lns s) in *.
    specialize (IH s2 o2 R2). destruct (t_loops b r s2) as [[k s3]|er]; cbn [obind].
    + destruct IH as (o3 & H3 & R3 & I3). exists o3. unfold seq. rewrite H3. split; [reflexivity|]. split; [exact R3|]. destruct looped; lia.
    + destruct IH as (o3 & H3 & L3). exists o3. unfold seq. rewrite H3. split; [reflexivity|]. pose proof (rel_ind d s o s2 o2 HR R2 ltac:(destruct looped; lia)). lia.
Qed.
Lemma finish_same k : forall s o, rel d s o -> (k <= g_ind s)%nat -> exists o', o_loop_finish b k o = (o', Done tt) /\ rel d (loop_finish b k s) o' /\ g_ind (loop_finish b k s) = (g_ind s - k)%nat.
Proof.
  induction k as [|k IH]; intros s o HR Hk; cbn [o_loop_finish loop_finish].
  - exists o. split; [reflexivity|]. split; auto. lia.
  - destruct (unnest_same d s o HR ltac:(lia)) as (o1 & H1 & R1). rewrite (seq_ok H1).
    destruct (write_same d [loop_end b] _ _ R1) as (o2 & H2 & R2). rewrite (seq_ok H2).
    destruct (IH _ _ R2) as (o3 & H3 & R3 & I3); [inds; lia|]. exists o3. split; auto. split; auto. rewrite I3. inds. lia.
Qed.
Lemma splits_same sps : same d (o_splits b sps) (t_splits b sps).
Proof.
  unfold o_splits, t_splits. induction sps as [|sp r IH]; intros s o HR; cbn [each fold_left]; [exists o; split; [reflexivity|exact HR]|].
  match goal with |- context [write ?l s] => destruct (write_same d l s o HR) as (o1 & H1 & R1) end. unfold seq. rewrite H1. apply IH. exact R1.
Qed.
Lemma splits_ind sps : forall s, g_ind (t_splits b sps s) = g_ind s.
Proof. unfold t_splits. induction sps as [|sp r IH]; intros s; cbn [fold_left]; auto. rewrite IH. apply write_ind. Qed.
Lemma guards_same sps : same d (o_guards b sps) (t_guards b sps).
Proof.
  unfold o_guards, t_guards. induction sps as [|sp r IH]; intros s o HR; cbn [each fold_left]; [exists o; split; [reflexivity|exact HR]|].
  destruct (sp_guard sp).
  - unfold seq at 1. match goal with |- context [write ?l s] => destruct (write_same d l s o HR) as (o1 & H1 & R1); set (s1 := write l s) in * end. rewrite (seq_ok H1).
    destruct (nest_same d _ _ R1) as (o2 & H2 & R2). rewrite (seq_ok H2).
    destruct (write_same d [return_function b] _ _ R2) as (o3 & H3 & R3). rewrite (seq_ok H3).
    destruct (unnest_same d _ _ R3 ltac:(inds; lia)) as (o4 & H4 & R4). rewrite (seq_ok H4).
    destruct (write_same d [if_end b] _ _ R4) as (o5 & H5 & R5). rewrite H5. apply IH. exact R5.
  - rewrite seq_ret. apply IH. exact HR.
Qed.
Lemma guards_ind sps : forall s, g_ind (t_guards b sps s) = g_ind s.
Proof.
  unfold t_guards. induction sps as [|sp r IH]; intros s; cbn [fold_left]; auto. rewrite IH. destruct (sp_guard sp); auto.
Qed.
End Sim.

(* the text the generator writes from indentation d, given the text it writes from 0 *)
Definition shifted (d : nat) (t t' : string) : Prop := exists lns, lns <> [] /\ t = join nl lns /\ t' = join nl (map (shift d) lns).
Lemma shifted_0 t t' : shifted 0 t t' -> t' = t.
Proof. intros (lns & _ & -> & ->). f_equal. erewrite map_ext; [apply map_id|reflexivity]. Qed.
Theorem codegen_sim b g E kname inputs f sc d o : ob_ind o = Z.of_nat d ->
  match t_codegen b g E kname inputs f sc (ob_tmp o) with
  | Done (t, k1) => exists o' t', o_codegen b g E kname inputs f sc o = (o', Done t') /\ shifted d t t' /\ ob_ind o' = ob_ind o /\ ob_tmp o' = k1
  | Throw e => exists o', o_codegen b g E kname inputs f sc o = (o', Throw e) /\ ob_ind o <= ob_ind o' /\
      ((exists ts, arg_types g E inputs = Done ts) -> ob_ind o < ob_ind o')
  end.
Proof.
  intros Hd. unfold t_codegen, o_codegen. rewrite (seq_ok (m := fun o => (mkOb [] (ob_ind o) (ob_tmp o), Done tt)) (o := o) eq_refl).
  assert (R0 : rel d (mkG [] 0 (ob_tmp o)) (mkOb [] (ob_ind o) (ob_tmp o))) by (split; cbn; auto; rewrite Hd; f_equal; lia).
  destruct (write_same d (map (import_lib b) (default_library b)) _ _ R0) as (o1 & H1 & R1). rewrite (seq_ok H1). set (s1 := write _ _) in *.
  assert (I1 : g_ind s1 = 0%nat) by (unfold s1; inds; reflexivity). assert (L1 : ob_ind o1 = ob_ind o) by (destruct R1 as [-> _ _]; rewrite I1, Hd; f_equal; lia).
  destruct (arg_types g E inputs) as [ts|er]; cbn [obind lift].
  2:{ exists o1. split; [reflexivity|]. split; [lia|]. intros (ts & H). discriminate. }
  rewrite seq_ret. match goal with |- context [write ?l s1] => destruct (write_same d l s1 o1 R1) as (o2 & H2 & R2); rewrite (seq_ok H2) end.
  destruct (nest_same d _ _ R2) as (o3 & H3 & R3). rewrite (seq_ok H3). set (s3 := nest _) in *.
  assert (I3 : g_ind s3 = 1%nat) by (unfold s3; inds; rewrite I1; reflexivity).
  assert (L3 : ob_ind o3 = ob_ind o + 1) by (destruct R3 as [-> _ _]; rewrite I3, Hd; lia).
  pose proof (loops_sim b d (s_loops sc) s3 o3 R3) as HL. destruct (t_loops b (s_loops sc) s3) as [[cnt s4]|er] eqn:EL; cbn [obind].
  2:{ destruct HL as (o4 & H4 & L4). exists o4. rewrite (seq_no H4). split; [reflexivity|]. split; [lia|]. intros _. lia. }
  destruct HL as (o4 & H4 & R4 & I4). rewrite (seq_ok H4).
  destruct (splits_same b d (s_splits sc) s4 o4 R4) as (o5 & H5 & R5). rewrite (seq_ok H5).
  destruct (guards_same b d (s_splits sc) _ o5 R5) as (o6 & H6 & R6). rewrite (seq_ok H6). set (s6 := t_guards _ _ _) in *.
  assert (I6 : g_ind s6 = S cnt) by (unfold s6; rewrite guards_ind, splits_ind; lia).
  pose proof (render_sim b g E d (named_args inputs 0) (f_expr f) (f_dtype f) s6 o6 R6) as HX.
  destruct (t_render b g E (named_args inputs 0) (f_expr f) (f_dtype f) s6) as [[result s7]|er]; cbn [obind].
  2:{ destruct HX as (o7 & H7 & L7). exists o7. rewrite (seq_no H7). assert (L6 : ob_ind o + 1 <= ob_ind o6) by (destruct R6 as [-> _ _]; rewrite I6, Hd; lia).
      split; [reflexivity|]. split; [lia|]. intros _. lia. }
  destruct HX as (o7 & H7 & R7 & I7). rewrite (seq_ok H7).
  match goal with |- context [write ?l s7] => destruct (write_same d l s7 o7 R7) as (o8 & H8 & R8); rewrite (seq_ok H8); set (s8 := write l s7) in * end.
  assert (I8 : g_ind s8 = S cnt) by (unfold s8; inds; congruence).
  destruct (finish_same b d cnt s8 o8 R8 ltac:(lia)) as (o9 & H9 & R9 & I9). rewrite (seq_ok H9).
  destruct (unnest_same d _ _ R9 ltac:(lia)) as (o10 & H10 & R10). rewrite (seq_ok H10).
  destruct (write_same d [kern_end b] _ _ R10) as (o11 & H11 & R11). rewrite (seq_ok H11). set (s11 := write [kern_end b] _) in *.
  assert (I11 : g_ind s11 = 0%nat) by (unfold s11; inds; lia).
  exists o11, (join nl (ob_buf o11)). split; [reflexivity|]. destruct R11 as [J1 J2 J3]. split; [|split; [rewrite J1, I11, Hd; f_equal; lia|exact J2]].
  exists (g_buf s11). split; [unfold s11; rewrite write_lines; cbn; intros H; now apply app_eq_nil in H as [_ H]|]. split; [reflexivity|]. now rewrite J3.
Qed.
