(* Executions of source texts are deterministic. *)
From Coq Require Import String.
From Verif Require Import Base BaseFacts Lang LangInst TextParse SrcSem.
Open Scope string_scope.
Open Scope Z_scope.
Open Scope list_scope.

Section Det.
Context (S : slang) (arrays : string -> option (string * nat)) (coord : string -> string -> option Z).
Ltac same := repeat match goal with
  | H : ?x = Some _, G : ?x = Some _ |- _ => rewrite H in G; injection G; clear G; intros; subst
  end.
Ltac step1 := match goal with
  | IH : forall fl' r2 m2, _ -> _ = fl' /\ _ = r2 /\ _ = m2, G : _ |- _ => let E := fresh "E" in pose proof (IH _ _ _ G) as E; clear G; destruct E as (? & ? & ?); try discriminate; subst; clear IH
  end.
Lemma exec_det :
  (forall r m ss fl r1 m1, exec S arrays coord r m ss fl r1 m1 -> forall fl' r2 m2, exec S arrays coord r m ss fl' r2 m2 -> fl = fl' /\ r1 = r2 /\ m1 = m2) /\
  (forall r m s fl r1 m1, exec1 S arrays coord r m s fl r1 m1 -> forall fl' r2 m2, exec1 S arrays coord r m s fl' r2 m2 -> fl = fl' /\ r1 = r2 /\ m1 = m2) /\
  (forall r m c y st body fl r1 m1, loop S arrays coord r m c y st body fl r1 m1 -> forall fl' r2 m2, loop S arrays coord r m c y st body fl' r2 m2 -> fl = fl' /\ r1 = r2 /\ m1 = m2) /\
  (forall r m x zs body fl r1 m1, each S arrays coord r m x zs body fl r1 m1 -> forall fl' r2 m2, each S arrays coord r m x zs body fl' r2 m2 -> fl = fl' /\ r1 = r2 /\ m1 = m2).
Proof.
  apply (exec_mut S arrays coord); intros;
    match goal with |- ?fl = ?fl' /\ ?r1 = ?r2 /\ ?m1 = ?m2 => match goal with H : _ |- _ => match type of H with
      | exec _ _ _ _ _ _ fl' r2 m2 => inversion H; clear H | exec1 _ _ _ _ _ _ fl' r2 m2 => inversion H; clear H
      | loop _ _ _ _ _ _ _ _ _ fl' r2 m2 => inversion H; clear H | each _ _ _ _ _ _ _ _ fl' r2 m2 => inversion H; clear H end end end;
    subst; repeat (same; try congruence; try step1; try discriminate); auto.
Qed.
End Det.
Theorem calls_det S coord p ls m m1 m2 : calls S coord p ls m m1 -> calls S coord p ls m m2 -> m1 = m2.
Proof. intros (_ & f1 & r1 & H1) (_ & f2 & r2 & H2). now destruct (proj1 (exec_det S _ coord) _ _ _ _ _ _ H1 _ _ _ H2) as (_ & _ & ->). Qed.
