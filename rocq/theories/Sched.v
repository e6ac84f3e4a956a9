(* sched.py: loop schedules.  A LoopVar object is identified by its name: names stay distinct
   inside one SchedulerFunc because a split replaces the variable by two longer names. *)
From Verif Require Import Base Util Lang Spec Graph Algo Kernel.

(* sched.py:12-18 *)
Record loopvar := mkLV { lv_name : name; lv_ext : Z }.
(* sched.py:6-8 *)
Inductive lkind := Spatial | Reduce.
(* sched.py:53-57 *)
Record loopsched := mkLS { ls_lv : loopvar; ls_kind : lkind; ls_exec : lexec }.
(* sched.py:20-29 *)
Record splitloop := mkSp { sp_orig : loopvar; sp_o : loopvar; sp_i : loopvar; sp_factor : Z; sp_guard : bool }.
(* sched.py:61-64, 66-71: the state of a SchedulerFunc *)
Record schedule := mkS { s_loops : list loopsched; s_splits : list splitloop }.

Definition lname (l : lidx) : name := NLoop (l_red l) (l_pos l) [].
(* algo.py:109-116 reduced_vars *)
Fixpoint reduced_vars (e : expr) : list lidx :=
  match e with
  | ESum _ red => red
  | EBin _ x y => reduced_vars x ++ reduced_vars y
  | EWhere c t f => reduced_vars c ++ reduced_vars t ++ reduced_vars f
  | EUn _ x => reduced_vars x
  | _ => []
  end.
(* sched.py:67-71 *)
Definition sched_init (f : func) : schedule :=
  mkS (map (fun l => mkLS (mkLV (lname l) (l_ext l)) Spatial XSeq) (f_loops f) ++
       map (fun l => mkLS (mkLV (lname l) (l_ext l)) Reduce XSeq) (reduced_vars (f_expr f))) [].

(* sched.py:129-132 *)
Fixpoint index_of (n : name) (l : list loopsched) : option nat :=
  match l with [] => None | x :: r => if name_eqb (lv_name (ls_lv x)) n then Some 0%nat else option_map S (index_of n r) end.

(* math.ceil(a / b) for 0 < b: float division, exact for a below 2^53 *)
Definition ceildiv (a b : Z) : Z := - ((- a) / b).
Definition suffix (outer : bool) (n : name) : name :=
  match n with NLoop r p q => NLoop r p (q ++ [outer]) | _ => n end.
(* sched.py:73-82 *)
Definition split (s : schedule) (lv : loopvar) (factor : Z) : outcome (schedule * loopvar * loopvar) :=
  if factor =? 0 then Throw ZeroDivErr
  else
    let outer := mkLV (suffix true (lv_name lv)) (ceildiv (lv_ext lv) factor) in
    let inner := mkLV (suffix false (lv_name lv)) factor in
    let guard := negb (lv_ext lv mod factor =? 0) in
    match index_of (lv_name lv) (s_loops s) with
    | None => Throw RuntimeErr
    | Some i =>
        match nth_error (s_loops s) i with
        | None => Throw InternalErr
        | Some l => Done (mkS (firstn i (s_loops s) ++ [mkLS outer (ls_kind l) XSeq; mkLS inner (ls_kind l) XSeq] ++ skipn (S i) (s_loops s))
                              (s_splits s ++ [mkSp lv outer inner factor guard]), outer, inner)
        end
    end.

(* sched.py:84-88: only the loop variables move; indices sorted in decreasing order *)
Definition set_lv (l : list loopsched) (i : nat) (lv : loopvar) : list loopsched :=
  match nth_error l i with Some x => upd l i (mkLS lv (ls_kind x) (ls_exec x)) | None => l end.
Fixpoint indices_of (l : list loopsched) (lvs : list loopvar) : outcome (list Z) :=
  match lvs with
  | [] => Done []
  | lv :: r => i <~ throw_none RuntimeErr (index_of (lv_name lv) l) ;; is <~ indices_of l r ;; Done (Z.of_nat i :: is)
  end.
Definition reorder (s : schedule) (lvs : list loopvar) : outcome schedule :=
  is <~ indices_of (s_loops s) lvs ;;
  Done (mkS (fold_left (fun l '(i, lv) => set_lv l (Z.to_nat i) lv) (combine (rev (zsort is)) lvs) (s_loops s)) (s_splits s)).

(* sched.py:90-100,108-122 *)
Definition set_exec (s : schedule) (lv : loopvar) (x : lexec) : outcome schedule :=
  i <~ throw_none RuntimeErr (index_of (lv_name lv) (s_loops s)) ;;
  match nth_error (s_loops s) i with
  | Some l => Done (mkS (upd (s_loops s) i (mkLS (ls_lv l) (ls_kind l) x)) (s_splits s))
  | None => Throw InternalErr
  end.

(* sched.py:126-127 *)
Definition is_spatial (l : loopsched) : bool := match ls_kind l with Spatial => true | Reduce => false end.
Definition spatial_loops (s : schedule) : list loopvar := map ls_lv (filter is_spatial (s_loops s)).

(* sched.py:138-146 *)
Definition schedule_cpu (s : schedule) : outcome schedule :=
  let sp := spatial_loops s in
  s1 <~ match sp with lv :: _ => set_exec s lv XPar | [] => Done s end ;;
  match sp with
  | _ :: _ :: _ => set_exec s1 (last sp (mkLV NOut 0)) XVec
  | _ => Done s1
  end.

(* sched.py:148-171 *)
Definition block_size : Z := 256.
Definition schedule_gpu (s : schedule) : outcome schedule :=
  match spatial_loops s with
  | [] => Done s
  | [a] =>
      '(s1, io, ii) <~ split s a block_size ;;
      s2 <~ set_exec s1 io (XBlock AX) ;; set_exec s2 ii (XThread AX)
  | [a; b] =>
      '(s1, io, ii) <~ split s b block_size ;;
      s2 <~ set_exec s1 a (XBlock AX) ;; s3 <~ set_exec s2 io (XBlock AY) ;; set_exec s3 ii (XThread AX)
  | [a; b; c] =>
      '(s1, io, ii) <~ split s c block_size ;;
      s2 <~ set_exec s1 a (XBlock AX) ;; s3 <~ set_exec s2 b (XBlock AY) ;;
      s4 <~ set_exec s3 io (XBlock AZ) ;; set_exec s4 ii (XThread AX)
  | sp =>
      '(s1, io, ii) <~ split s (last sp (mkLV NOut 0)) block_size ;;
      s2 <~ set_exec s1 io (XBlock AX) ;; set_exec s2 ii (XThread AX)
  end.

(* sched.py:173-184 *)
Definition auto_schedule (gpu : bool) (f : func) : outcome schedule :=
  if gpu then schedule_gpu (sched_init f) else schedule_cpu (sched_init f).
