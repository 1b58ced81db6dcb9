(** The permutation symbol: proofs. *)
From Coq Require Import ZArith.
From mathcomp Require Import all_ssreflect all_fingroup.
From Verif Require Import PermModel.
Set Implicit Arguments. Unset Strict Implicit. Unset Printing Implicit Defensive.
Local Open Scope nat_scope.

Section PP.
Variable n : nat.
Variable s : {perm 'I_n}.
Definition table : list nat := [seq val (s i) | i <- enum 'I_n].

Lemma size_table : size table = n. Proof. by rewrite size_map size_enum_ord. Qed.
Lemma table_at (i : 'I_n) : List.nth_error table i = Some (val (s i)).
Proof.
  have E : forall (A : Type) (l : seq A) k x0, k < size l -> List.nth_error l k = Some (nth x0 l k).
  { by move=> A; elim=> [|h t IH] [|k] x0 //= H; rewrite (IH k x0). }
  rewrite (E _ _ _ 0) ?size_table //. by rewrite (nth_map i) ?size_enum_ord // nth_ord_enum.
Qed.
Lemma set_at_size v x : size (set_at v x) = size v.
Proof. elim: v x => [|h t IH] [|x] //=. by rewrite IH. Qed.
Lemma set_at_nth v x y : x < size v -> nth false (set_at v x) y = (y == x) || nth false v y.
Proof.
  elim: v x y => [|h t IH] [|x] [|y] //= H; by rewrite IH.
Qed.
Definition marks (v : seq bool) (Q : pred 'I_n) : Prop := size v = n /\ forall i : 'I_n, nth false v i = Q i.

Lemma walk_spec (j : 'I_n) r : forall k v Q fuel, k + r = #|porbit s j| -> 0 < r -> r <= fuel -> marks v Q ->
  exists v', walk fuel n table (val j) (val (iter k s j)) v = Some v' /\
    marks v' (fun i => Q i || (i \in traject s (iter k.+1 s j) r)).
Proof.
  elim: r => [|r IH] k v Q [|fuel] // Hk _ Hf [Sz M].
  rewrite [walk _ _ _ _ _ _]/= table_at. have -> : Nat.ltb (s (iter k s j)) n = true by apply/PeanoNat.Nat.ltb_lt/ltP.
  rewrite -[s (iter k s j)]/(iter k.+1 s j). set y := iter k.+1 s j.
  have M1 : marks (set_at v (val y)) (fun i => Q i || (i == y)).
  { split; first by rewrite set_at_size.
    move=> i. rewrite set_at_nth ?Sz ?ltn_ord // M orbC. by rewrite (inj_eq val_inj). }
  case: (PeanoNat.Nat.eqb_spec (val y) (val j)) => E.
  - have {E} E : y = j by apply: val_inj.
    have Hr : r = 0.
    { case: r Hk {IH Hf} => // r Hk.
      have U := uniq_traject_porbit s j.
      have L : k.+1 < #|porbit s j| by rewrite -Hk !addnS !ltnS leq_addr.
      have : nth j (traject s j #|porbit s j|) k.+1 == nth j (traject s j #|porbit s j|) 0.
      { rewrite !nth_traject //; last by apply: leq_ltn_trans L. by rewrite -/y E. }
      rewrite nth_uniq ?size_traject //. by apply: leq_ltn_trans L. }
    subst r. exists (set_at v (val y)); split => //. case: M1 => S1 M1. split => // i. rewrite M1 /= inE. by [].
  - have Hr : 0 < r.
    { case: r Hk {IH Hf} => // Hk. case: E. rewrite /y. have -> : k.+1 = #|porbit s j| by rewrite -Hk addn1.
      by rewrite iter_porbit. }
    case: (IH k.+1 (set_at v (val y)) (fun i => Q i || (i == y)) fuel) => //; first by rewrite addSnnS.
    move=> v' [W [S2 M2]]. exists v'; split => //. split => // i. rewrite M2 /= inE. by rewrite orbA.
Qed.
Lemma orbit_from (j : 'I_n) : traject s (s j) #|porbit s j| =i porbit s j.
Proof.
  move=> y. have P1 : porbit s (s j) = porbit s j by rewrite -[RHS](porbit_perm s 1 j) expg1.
  by rewrite -P1 porbit_traject P1.
Qed.

(** Orbits of the first [m] indices *)
Definition seen (m : nat) : pred 'I_n := fun i => [exists a : 'I_n, (val a < m) && (i \in porbit s a)].
Definition late (j : 'I_n) : bool := seen (val j) j.

Lemma seenS (m : 'I_n) i : seen m.+1 i = seen m i || (i \in porbit s m).
Proof.
  apply/existsP/orP.
  - case=> a /andP[]. rewrite ltnS leq_eqVlt => /orP[/eqP E H|L H]; [right|left].
    + by rewrite (_ : m = a) //; apply: val_inj.
    + by apply/existsP; exists a; rewrite L.
  - case=> [/existsP[a /andP[L H]]|H].
    + exists a. by rewrite (ltn_trans L) //= H.
    + exists m. by rewrite ltnSn.
Qed.
Lemma seen_absorb (m : 'I_n) i : late m -> seen m.+1 i = seen m i.
Proof.
  rewrite seenS => /existsP[a /andP[L H]]. apply/orb_idr => Hi. apply/existsP; exists a. rewrite L /=.
  move: H. rewrite -eq_porbit_mem => /eqP <-. exact: Hi.
Qed.
Lemma count_late m : m <= n -> exists p v,
  List.fold_left (pp_step n table) (List.seq 0 m) (Some (0, List.repeat false n)) = Some (p, v) /\
  marks v (seen m) /\ p = #|[set j : 'I_n | (val j < m) && late j]|.
Proof.
  elim: m => [|m IH] Hm.
  - exists 0, (List.repeat false n). split => //. split.
    + have R : List.repeat false n = nseq n false by elim: n => //= k ->.
      rewrite R. split; first by rewrite size_nseq. move=> i. rewrite nth_nseq if_same.
      apply/esym/negbTE/existsP. by case.
    + apply/esym/eqP. rewrite cards_eq0. apply/eqP/setP => j. by rewrite !inE.
  - case: (IH (ltnW Hm)) => p [v [F [M Ep]]].
    rewrite List.seq_S List.fold_left_app F /=. have Hn := M.1.
    have NT : forall (l : seq bool) k, List.nth k l false = nth false l k by elim=> [|h t IHl] [|k] //=.
    rewrite NT. pose j := Ordinal Hm. rewrite -[m]/(val j) (M.2 j) -/(late j).
    have C : #|[set i : 'I_n | (val i < m.+1) && late i]| = late j + p.
    { rewrite Ep. have -> : [set i : 'I_n | (val i < m.+1) && late i] =
         (if late j then j |: [set i : 'I_n | (val i < m) && late i] else [set i : 'I_n | (val i < m) && late i]).
      { apply/setP => i. case Lj: (late j); rewrite !inE ltnS leq_eqVlt.
        - have -> : (val i == m) = (i == j) by [].
          case: eqP => [->|] //=.
        - case E: (val i == m) => //=. have -> : i = j by apply: val_inj; apply/eqP. by rewrite Lj andbF. }
      case: (late j) => //. by rewrite cardsU1 !inE /= ltnn. }
    case Lj: (late j).
    + exists p.+1, v. split => //. split; last by rewrite -[m.+1]/((val j).+1) C Lj.
      case: M => Sz M. split => // i. rewrite -[m.+1]/((val j).+1) seen_absorb //.
    + have W := @walk_spec j #|porbit s j| 0 v (seen m) n (add0n _) _ _ M.
      case: W => [||v' [W M']]; [by rewrite lt0n card_porbit_neq0|by rewrite -[X in _ <= X]card_ord max_card|].
      rewrite W. exists p, v'. split => //. split; last by rewrite -[m.+1]/((val j).+1) C Lj.
      case: M' => Sz' M'. split => // i. rewrite M' -[m.+1]/((val j).+1) seenS. by rewrite -orbit_from.
Qed.
(** Every orbit has exactly one index that is not late: its smallest. *)
Lemma late_orbits : #|[set j : 'I_n | late j]| + #|porbits s| = n.
Proof.
  have -> : #|porbits s| = #|[set j : 'I_n | ~~ late j]|.
  { have I : {in [set j : 'I_n | ~~ late j] &, injective (porbit s)}.
    { move=> x y. rewrite !inE => Lx Ly E. apply: val_inj. apply/eqP. rewrite eqn_leq. apply/andP; split; rewrite leqNgt; apply/negP => L.
      - move: Lx => /negP; apply. apply/existsP; exists y. rewrite L /=. by rewrite -eq_porbit_mem E.
      - move: Ly => /negP; apply. apply/existsP; exists x. rewrite L /=. by rewrite -eq_porbit_mem E. }
    rewrite -(card_in_imset I). congr #|pred_of_set _|. apply/setP => O. apply/imsetP/imsetP.
    - case=> x _ ->. 
      have [m Hm Min] := @arg_minnP _ x (fun i => i \in porbit s x) val (porbit_id s x).
      exists m.
      + rewrite inE. apply/negP => /existsP[a /andP[L H]].
        have : a \in porbit s x by rewrite porbit_sym in H; move: Hm H; rewrite -!eq_porbit_mem => /eqP <-.
        move/Min. by rewrite leqNgt L.
      + apply/esym/eqP. by rewrite eq_porbit_mem.
    - case=> x _ ->. by exists x. }
  rewrite -[RHS](card_ord n) -(cardsC [set j : 'I_n | late j]). congr (_ + _). apply: eq_card => j. by rewrite !inE.
Qed.
Lemma pp_sign : pp n table = Some (if odd_perm s then (-1)%Z else 1%Z).
Proof.
  rewrite /pp. case: (@count_late n (leqnn n)) => p [v [-> [_ Ep]]].
  have {Ep} Ep : p = #|[set j : 'I_n | late j]| by rewrite Ep; apply: eq_card => j; rewrite !inE ltn_ord.
  have E : Nat.even p = ~~ odd p.
  { elim: p {Ep} => // p IH. rewrite PeanoNat.Nat.even_succ -PeanoNat.Nat.negb_even IH /=. by []. }
  rewrite E /odd_perm card_ord. congr Some.
  have H : odd p = odd n (+) odd #|porbits s| by rewrite -[in odd n]late_orbits -Ep oddD -addbA addbb addbF.
  rewrite H. by case: (_ (+) _).
Qed.
End PP.

Local Open Scope Z_scope.
Definition four : list Z := (0 :: 1 :: 2 :: 3 :: nil)%list.
Definition opt_is (o : option Z) (x : Z) : bool := if o is Some y then Z.eqb y x else false.
Definition swaps_ok (a b c d : Z) : bool :=
  if antisym a b c d is Some x then
    opt_is (antisym b a c d) (- x) && opt_is (antisym c b a d) (- x) && opt_is (antisym d b c a) (- x) &&
    opt_is (antisym a c b d) (- x) && opt_is (antisym a d c b) (- x) && opt_is (antisym a b d c) (- x)
  else false.
Lemma swaps_all : List.forallb (fun a => List.forallb (fun b => List.forallb (fun c => List.forallb (fun d => swaps_ok a b c d) four) four) four) four.
Proof. by vm_compute. Qed.
Lemma in_four a : 0 <= a <= 3 -> List.In a four.
Proof. case=> A B. have : a = 0 \/ a = 1 \/ a = 2 \/ a = 3 by Lia.lia. rewrite /four /=. by intuition. Qed.
Lemma swaps a b c d : 0 <= a <= 3 -> 0 <= b <= 3 -> 0 <= c <= 3 -> 0 <= d <= 3 -> swaps_ok a b c d.
Proof.
  move=> /in_four A /in_four B /in_four C /in_four D. move: swaps_all.
  by move=> /List.forallb_forall/(_ _ A) /List.forallb_forall/(_ _ B) /List.forallb_forall/(_ _ C) /List.forallb_forall/(_ _ D).
Qed.
Lemma opt_isE o x : opt_is o x -> o = Some x.
Proof. case: o => //= y /Z.eqb_spec ->. by []. Qed.
Lemma antisym_swaps a b c d : 0 <= a <= 3 -> 0 <= b <= 3 -> 0 <= c <= 3 -> 0 <= d <= 3 -> exists x,
  antisym a b c d = Some x /\ antisym b a c d = Some (- x) /\ antisym c b a d = Some (- x) /\ antisym d b c a = Some (- x) /\
  antisym a c b d = Some (- x) /\ antisym a d c b = Some (- x) /\ antisym a b d c = Some (- x).
Proof.
  move=> A B C D. move: (swaps A B C D). rewrite /swaps_ok. case: (antisym a b c d) => // x.
  case/andP => /andP[/andP[/andP[/andP[]]]] /opt_isE H1 /opt_isE H2 /opt_isE H3 /opt_isE H4 /opt_isE H5 /opt_isE H6.
  by exists x.
Qed.
Lemma antisym_range a b c d : (exists x, (x = a \/ x = b \/ x = c \/ x = d) /\ ~ 0 <= x <= 3) -> antisym a b c d = Some 100.
Proof.
  case=> x [E N]. rewrite /antisym.
  have bad : (x <? 0) || (x >? 3) by apply/orP; case: (Z.ltb_spec x 0) => ?; [left|right; rewrite Z.gtb_ltb; apply/Z.ltb_spec0; Lia.lia].
  case: E => [<-|[<-|[<-|<-]]]; rewrite bad //; do ![case: ifP => // _].
Qed.
