From Verif Require Import FlowSpec FlowProof GraphProof TextProof GeomProof.
From Coq Require Import List Lia Permutation.
Import ListNotations.
Open Scope Q_scope.

Definition next_of (t : list (nat * fblock)) : option fblock := match t with [] => None | (_, n) :: _ => Some n end.
Section O.
Context (order : list nat -> list nat) (Ho : forall l, Permutation l (order l)) (tol sep : Q) (all : list shade).
(** Numbers assigned to the blocks: from left to right, [prev]: the block before is level with the
    first one. *)
Fixpoint numbers (prev : bool) (ws : list (nat * fblock)) : Prop :=
  match ws with
  | [] => True
  | (n, b) :: t =>
      let side := beside_next b (next_of t) in
      (prev = true \/ f_flow order tol sep b = Some false \/ side = true -> (1 <= n)%nat) /\
      ((1 <= n)%nat -> prev = true \/ f_flow order tol sep b = Some false \/ side = true \/ exists s, In s all /\ in_shade s b = true) /\
      (n <= 2)%nat /\ (n = 2%nat -> prev = true /\ exists s, In s all /\ in_shade s b = true) /\
      numbers side t
  end.
Lemma run_lines_app a b : run_lines (a ++ b) = run_lines a ++ run_lines b.
Proof. unfold run_lines. apply flat_map_app. Qed.
Lemma run_lines_nil run : (forall p, In p run -> (1 <= fst p)%nat /\ sub_lines (snd p) <> []) -> (run_lines run = [] <-> run = []).
Proof.
  intros H. split; [|intros ->; reflexivity]. destruct run as [|(n, b) t]; [reflexivity|]. intros E. destruct (H _ (or_introl eq_refl)) as [Hn Hb]. cbn [fst snd] in *.
  destruct n as [|n]; [lia|]. unfold run_lines in E. cbn [flat_map fst snd repeat concat] in E. destruct (sub_lines b); [congruence|discriminate].
Qed.
Lemma loop_runs : forall bs shades nl acc run0,
  (forall b, In b bs -> sub_lines b <> []) -> incl shades all ->
  (forall p, In p run0 -> (1 <= fst p)%nat /\ sub_lines (snd p) <> []) ->
  (bs = [] -> nl = true /\ run0 = []) ->
  acc = run_lines (run0 ++ match bs with b :: _ => if nl then [] else [(1%nat, b)] | [] => [] end) ->
  exists ws, map snd ws = bs /\ stream_loop order tol sep shades nl acc bs = Some (map run_lines (runs_from run0 ws)) /\ numbers (negb nl) ws.
Proof.
  induction bs as [|b t IH]; intros shades nl acc run0 Ne Inc R0 Z A.
  - exists []. split; [reflexivity|]. destruct (Z eq_refl) as [_ ->]. split; [reflexivity|exact I].
  - clear Z. cbn [stream_loop]. set (next := match t with [] => None | n :: _ => Some n end).
    set (sh := match shades with [] => ([], false) | s :: r => if in_shade s b then (shades, true) else if qlt (ry1 (sd_box s)) (match next with None => 0 | Some n => ry0 (f_box n) end) then (r, false) else (shades, false) end).
    assert (Hsh : incl (fst sh) all /\ (snd sh = true -> exists s, In s all /\ in_shade s b = true)).
    { unfold sh. destruct shades as [|s r]; [split; [intros x []|discriminate]|]. destruct (in_shade s b) eqn:Es; [split; [exact Inc|intros _; exists s; split; [apply Inc; left; reflexivity|exact Es]]|].
      destruct (qlt _ _); (split; [intros x Hx; apply Inc; cbn [fst] in Hx; try (right; exact Hx); exact Hx|discriminate]). }
    destruct sh as [shades' shaded]. cbn [fst snd] in Hsh. destruct Hsh as [Inc' Hs]. clear Inc shades.
    assert (Hn : forall ws, map snd ws = t -> next_of ws = next) by (intros ws <-; destruct ws as [|(k, x) r]; reflexivity).
    destruct (f_flow_total order Ho tol sep b) as (flow & Ef).
    (* number of times b is taken *)
    set (nl1 := if shaded then false else nl). set (flow' := if nl1 then flow else true). set (nl2 := if flow' then nl1 else false). set (side := beside_next b next).
    set (n := ((if nl then 0 else 1) + (if shaded then 1 else 0) + (if flow' then 0 else 1) + (if side && nl2 then 1 else 0))%nat).
    assert (Eflow : (if nl1 then f_flow order tol sep b else Some true) = Some flow') by (unfold flow'; destruct nl1; [exact Ef|reflexivity]). rewrite Eflow. clear Eflow.
    set (acc3 := if side then (if nl2 then (if flow' then (if shaded then acc ++ sub_lines b else acc) else (if shaded then acc ++ sub_lines b else acc) ++ sub_lines b) ++ sub_lines b
                               else (if flow' then (if shaded then acc ++ sub_lines b else acc) else (if shaded then acc ++ sub_lines b else acc) ++ sub_lines b)) ++ match next with None => [] | Some n => sub_lines n end
                 else (if flow' then (if shaded then acc ++ sub_lines b else acc) else (if shaded then acc ++ sub_lines b else acc) ++ sub_lines b)).
    assert (Eacc : acc3 = run_lines (run0 ++ (match n with O => [] | _ => [(n, b)] end) ++ (if side then match next with None => [] | Some m => [(1%nat, m)] end else []))).
    { unfold acc3. rewrite A, !run_lines_app. unfold n, nl2, flow', nl1. clear.
      assert (L0 : run_lines [] = []) by reflexivity. assert (L1 : forall x, run_lines [(1%nat, x)] = sub_lines x) by (intros; unfold run_lines; cbn; rewrite !app_nil_r; reflexivity).
      assert (L2 : forall x, run_lines [(2%nat, x)] = sub_lines x ++ sub_lines x) by (intros; unfold run_lines; cbn; rewrite !app_nil_r; reflexivity).
      destruct nl, shaded, flow, side, next as [m|]; cbn [andb Nat.add]; rewrite ?L0, ?L1, ?L2, ?app_nil_r, <- ?app_assoc, ?app_nil_r; reflexivity. }
    assert (Cn : (1 <= n)%nat <-> negb nl = true \/ shaded = true \/ (nl = true /\ shaded = false /\ flow = false) \/ side = true).
    { unfold n, nl2, flow', nl1. clear. destruct nl, shaded, flow, side; cbn; split; intros H; try lia; try tauto; repeat (destruct H as [H|H]); try discriminate; repeat (destruct H as [? H]); discriminate. }
    assert (Facts : forall ws, map snd ws = t -> numbers side ws -> numbers (negb nl) ((n, b) :: ws)).
    { intros ws Ew Hw. cbn [numbers]. cbv zeta. rewrite (Hn ws Ew). fold side. split; [|split; [|split; [|split; [|exact Hw]]]].
      - intros [H|[H|H]]; apply Cn; [left; exact H| |right; right; right; exact H]. rewrite Ef in H. injection H as ->. destruct nl; [|left; reflexivity]. destruct shaded; [right; left; reflexivity|right; right; left; auto].
      - intros H. apply Cn in H. destruct H as [H|[H|[(_ & _ & H)|H]]]; [left; exact H|right; right; right; apply Hs; exact H|right; left; rewrite Ef, H; reflexivity|right; right; left; exact H].
      - unfold n, nl2, flow', nl1. clear. destruct nl, shaded, flow, side; cbn; lia.
      - intros H. unfold n, nl2, flow', nl1 in H. clear -H Hs. destruct nl, shaded, flow, side; cbn in H; try lia; (split; [reflexivity|apply Hs; reflexivity]). }
    assert (Ends : negb side && nl2 = match n with O => true | _ => false end) by (unfold n, nl2, flow', nl1; clear; destruct nl, shaded, flow, side; reflexivity).
    assert (Sn : side = true -> exists m r, t = m :: r) by (intros H; unfold side, next in H; destruct t as [|m r]; [discriminate|exists m, r; reflexivity]).
    assert (Rn : forall p, In p (run0 ++ match n with O => [] | _ => [(n, b)] end) -> (1 <= fst p)%nat /\ sub_lines (snd p) <> []).
    { intros p Hp. apply in_app_or in Hp. destruct Hp as [Hp|Hp]; [apply R0; exact Hp|]. destruct n; [destruct Hp|]. destruct Hp as [<-|[]]. cbn [fst snd]. split; [lia|apply Ne; left; reflexivity]. }
    assert (Ne' : forall x, In x t -> sub_lines x <> []) by (intros x Hx; apply Ne; right; exact Hx).
    match goal with |- exists ws, _ /\ ?X = _ /\ _ => change X with
      (if ((negb side && nl2) || match t with [] => true | _ => false end) && negb (match acc3 with [] => true | _ => false end)
       then option_map (cons acc3) (stream_loop order tol sep shades' (negb side) [] t)
       else stream_loop order tol sep shades' (negb side) acc3 t) end. rewrite Ends.
    clearbody n acc3. clear Ends A Ef.
    destruct t as [|m r].
    + (* last block *)
      assert (Sf : side = false) by reflexivity. clearbody side. subst side. rewrite Bool.orb_true_r. cbn [andb]. rewrite app_nil_r in Eacc.
      exists [(n, b)]. split; [reflexivity|]. split; [|apply (Facts [] eq_refl I)].
      assert (Em : acc3 = [] <-> run0 ++ match n with O => [] | _ => [(n, b)] end = []) by (rewrite Eacc; apply run_lines_nil; exact Rn).
      cbn [stream_loop option_map]. destruct acc3 as [|a0 q] eqn:E3.
      * cbn [negb]. destruct Em as [Em _]. specialize (Em eq_refl). apply app_eq_nil in Em. destruct Em as [-> Em]. destruct n; [reflexivity|discriminate].
      * cbn [negb]. destruct n as [|k]; cbn [runs_from].
        -- rewrite app_nil_r in Eacc, Em. destruct run0 as [|p0 r0]; [exfalso; apply (proj2 Em) in E3 || idtac; discriminate (proj2 Em eq_refl)|]. cbn [close app map]. rewrite Eacc. reflexivity.
        -- destruct (run0 ++ [(S k, b)]) as [|p0 r0] eqn:Er; [destruct run0; discriminate|]. cbn [close map]. rewrite Eacc. reflexivity.
    + rewrite Bool.orb_false_r. destruct n as [|k].
      * (* table ends *)
        assert (Sf : side = false) by (destruct side; [exfalso; assert (1 <= 0)%nat by (apply Cn; right; right; right; reflexivity); lia|reflexivity]).
        clearbody side. subst side. cbn [andb]. cbn [app] in Eacc. rewrite app_nil_r in Eacc. rewrite app_nil_r in Rn.
        assert (Em : acc3 = [] <-> run0 = []) by (rewrite Eacc; apply run_lines_nil; exact R0).
        destruct (IH shades' true [] [] Ne' Inc' (fun p (H : In p []) => match H with end) (fun H => ltac:(discriminate H)) eq_refl) as (ws & W1 & W2 & W3).
        exists ((0%nat, b) :: ws). split; [cbn [map snd]; rewrite W1; reflexivity|]. split; [|apply (Facts ws W1 W3)].
        cbn [runs_from]. destruct acc3 as [|a0 q] eqn:E3.
        -- destruct Em as [Em _]. rewrite (Em eq_refl). cbn [negb close app]. exact W2.
        -- cbn [negb]. rewrite W2. cbn [option_map]. destruct run0 as [|p0 r0]; [discriminate (proj2 Em eq_refl)|]. cbn [close app map]. rewrite Eacc. reflexivity.
      * cbn [andb].
        destruct (IH shades' (negb side) acc3 (run0 ++ [(S k, b)]) Ne' Inc' Rn (fun H => ltac:(discriminate H))) as (ws & W1 & W2 & W3).
        { rewrite Eacc, <- app_assoc. subst next. destruct side; reflexivity. }
        exists ((S k, b) :: ws). split; [cbn [map snd]; rewrite W1; reflexivity|]. rewrite Bool.negb_involutive in W3. split; [|apply (Facts ws W1 W3)].
        cbn [runs_from]. exact W2.
Qed.
End O.
