(** Property theorems about log values and log records: C79. *)
From Coq Require Import List NArith Arith String Bool Lia.
From Verif Require Import Base LogRecord LogRecordSpec LogRecordProofs.
Import ListNotations.
Open Scope list_scope.
Open Scope string_scope.

(** Every sequence of calls through handles that are alive behaves like the
    mathematical maps: the same answers, and never undefined behaviour. *)
Theorem C79_records_refine_maps : forall gen gen2 ops s answers,
  sp_run gen gen2 ops sheet_init = Some (s, answers) ->
  exists w, l_run gen gen2 ops lworld_init = Done (w, answers) /\
    forall h n, view w h n = match kin s h with Some r => mem s r n | None => None end.
Proof.
  intros gen gen2 ops s answers H. destruct (run_ok _ _ _ _ _ _ _ R_init H) as (w & Hw & HR).
  exists w. split; [exact Hw|]. intros h n. now apply view_mem.
Qed.
Print Assumptions C79_records_refine_maps.

(** No map leaks and none is deleted early: a map exists exactly as long as a
    handle refers to it, and its count is the number of handles. *)
Theorem C79_no_leak : forall gen gen2 ops s answers w r x,
  sp_run gen gen2 ops sheet_init = Some (s, answers) ->
  l_run gen gen2 ops lworld_init = Done (w, answers) -> nth_error (lw_heap w) r = Some x ->
  match x with
  | Some c => lr_count c = users w r /\ 0 < users w r
  | None => users w r = 0
  end.
Proof.
  intros gen gen2 ops s answers w r x H Hw Hx. destruct (run_ok _ _ _ _ _ _ _ R_init H) as (w' & Hw' & HR).
  assert (w' = w) by congruence. subst w'. pose proof (r_cell _ _ HR _ _ Hx) as Hc. rewrite users_cnt.
  destruct x as [c|]; [|exact Hc]. destruct Hc as (a & b & _). split; [exact a|lia].
Qed.
Print Assumptions C79_no_leak.

(** The handle made by [Copy] shows what the original showed, and nothing done
    without using it changes what it shows. *)
Theorem C79_copy_is_isolated : forall gen gen2 ops h later s a,
  sp_run gen gen2 (ops ++ [RCopy h] ++ later) sheet_init = Some (s, a) ->
  exists w1 a1 w2 w3 r3 new,
    l_run gen gen2 ops lworld_init = Done (w1, a1) /\
    l_step gen gen2 (RCopy h) w1 = Done (w2, ANew new) /\
    l_run gen gen2 later w2 = Done (w3, r3) /\
    (forall n, view w2 new n = view w1 h n) /\
    (Forall (fun o => ~ touches new o) later -> forall n, view w3 new n = view w1 h n).
Proof.
  intros gen gen2 ops h later s a H.
  assert (Hsplit : forall l m s0 s2 a0, sp_run gen gen2 (l ++ m) s0 = Some (s2, a0) ->
            exists s1 a1 a2, sp_run gen gen2 l s0 = Some (s1, a1) /\ sp_run gen gen2 m s1 = Some (s2, a2)).
  { induction l as [|o t IH]; intros m s0 s2 a0; cbn [app sp_run].
    - intros E. eauto.
    - destruct (sp_step gen gen2 o s0) as [[s1 b]|]; [|discriminate].
      destruct (sp_run gen gen2 (t ++ m) s1) as [[s3 r]|] eqn:E; [|discriminate]. intros [= <- <-].
      destruct (IH _ _ _ _ E) as (s4 & a4 & a5 & -> & E5). eauto. }
  destruct (Hsplit _ _ _ _ _ H) as (s1 & a1 & a2 & H1 & H2). cbn [app sp_run] in H2.
  destruct (sp_step gen gen2 (RCopy h) s1) as [[s2 b]|] eqn:E2; [|discriminate].
  destruct (sp_run gen gen2 later s2) as [[s3 r3]|] eqn:E3; [|discriminate].
  destruct (run_ok _ _ _ _ _ _ _ R_init H1) as (w1 & Hw1 & HR1).
  destruct (step_ok _ _ _ _ _ _ _ HR1 E2) as (w2 & Hw2 & HR2).
  destruct (run_ok _ _ _ _ _ _ _ HR2 E3) as (w3 & Hw3 & HR3).
  cbn [sp_step] in E2. destruct (kin s1 h) as [r|] eqn:Ek; [|discriminate]. injection E2 as <- <-.
  exists w1, a1, w2, w3, r3, (length (sh_kin s1)). split; [exact Hw1|]. split; [exact Hw2|]. split; [exact Hw3|].
  set (s2 := mk_sheet (sh_kin s1 ++ [Some (length (sh_mem s1))]) (sh_mem s1 ++ [mem s1 r]) (sh_calls s1)) in *.
  assert (Hk2 : kin s2 (length (sh_kin s1)) = Some (length (sh_mem s1))).
  { unfold kin, s2. cbn [sh_kin]. rewrite kin_app, Nat.eqb_refl. reflexivity. }
  assert (Hm2 : forall n, mem s2 (length (sh_mem s1)) n = mem s1 r n).
  { intros n. unfold mem at 1, s2. cbn [sh_mem]. rewrite mem_app, Nat.eqb_refl. reflexivity. }
  assert (Hv1 : forall n, view w1 h n = mem s1 r n) by (intros n; rewrite (view_mem _ _ _ _ HR1), Ek; reflexivity).
  split.
  - intros n. rewrite (view_mem _ _ _ _ HR2), Hk2, Hm2, Hv1. reflexivity.
  - intros Ht n.
    assert (Ha : alone s2 (length (sh_kin s1)) (length (sh_mem s1))).
    { split; [exact Hk2|]. split; [unfold s2; cbn [sh_mem]; rewrite app_length; cbn; lia|].
      intros g Hg. unfold kin, s2. cbn [sh_kin]. rewrite kin_app. destruct (Nat.eqb_spec g (length (sh_kin s1))); [congruence|].
      intros Hk. unfold kin in Hk. destruct (nth_error (sh_kin s1) g) as [[q|]|] eqn:Eg; try discriminate. injection Hk as ->.
      rewrite (r_kin _ _ HR1) in Eg. apply (r_range _ _ HR1) in Eg. rewrite (r_len _ _ HR1) in Eg. lia. }
    destruct (run_alone _ _ _ _ _ _ _ _ E3 Ha Ht) as [(Hk3 & _ & _) Hm3].
    rewrite (view_mem _ _ _ _ HR3), Hk3, Hm3, Hm2, Hv1. reflexivity.
Qed.
Print Assumptions C79_copy_is_isolated.

(** A case: two handles share a record, a third is a copy; types are checked,
    functors are called at each [Get]. *)
Definition ex_gen (f k : nat) : N := N.of_nat (10 * f + k).
Definition ex_gen2 (f k : nat) : lvalue := LConst 0 (N.of_nat k).
Definition ex_ops : list lop :=
  [RNew; RAdd 0 "a" (LConst 1 7); RAdd 0 "a" (LConst 1 8); RShare 0; RCopy 0; RUpdate 1 "a" (LCall 2 4);
   RGet 0 "a" (TUser 2); RGet 0 "a" (TUser 2); RGet 2 "a" (TUser 1); RGet 2 "a" (TUser 2); RGet 2 "b" (TUser 1);
   RDestroy 0; RAssign 1 2; RTypeId 1 "a"].

Example C79_ex : exists s w,
  sp_run ex_gen ex_gen2 ex_ops sheet_init = Some (s,
    [ANew 0; ABool true; ABool false; ANew 1; ANew 2; AUnit; AVal 40; AVal 41; AVal 7; AThrow LogValueTypeMismatch;
     AThrow LogValueNotFound; AUnit; AUnit; AType (TUser 1)]) /\
  l_run ex_gen ex_gen2 ex_ops lworld_init = Done (w,
    [ANew 0; ABool true; ABool false; ANew 1; ANew 2; AUnit; AVal 40; AVal 41; AVal 7; AThrow LogValueTypeMismatch;
     AThrow LogValueNotFound; AUnit; AUnit; AType (TUser 1)]) /\
  nth_error (lw_heap w) 0 = Some None /\ users w 1 = 2.
Proof. eexists. eexists. vm_compute. auto. Qed.

Example C79_copy_is_isolated_ex : exists s a,
  sp_run ex_gen ex_gen2 ([RNew; RAdd 0 "a" (LConst 1 7)] ++ [RCopy 0] ++ [RUpdate 0 "a" (LConst 1 9); RDestroy 0]) sheet_init = Some (s, a) /\
  Forall (fun o => ~ touches 1 o) [RUpdate 0 "a" (LConst 1 9); RDestroy 0].
Proof.
  eexists. eexists. split; [vm_compute; reflexivity|]. repeat constructor; cbn; lia.
Qed.

(** Refuted: "a record that was moved from no longer aliases the new one": the
    move constructor takes [const LogRecord&&] and copies the handle, so both
    refer to the same map (log-record.h:288-291). *)
Theorem C79_move_shares_refuted : exists w a,
  l_run ex_gen ex_gen2 [RNew; RShare 0; RAdd 1 "a" (LConst 1 7); RGet 0 "a" (TUser 1)] lworld_init = Done (w, a) /\
  a = [ANew 0; ANew 1; ABool true; AVal 7].
Proof. eexists. eexists. vm_compute. auto. Qed.
Print Assumptions C79_move_shares_refuted.
