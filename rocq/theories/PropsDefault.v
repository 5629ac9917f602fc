(** * PropsDefault: the default-mode listing can be assembled again (C04). *)

From Coq Require Import Lia.
From Verif Require Import Lib SpecIsa SpecListing RoundProofs PropsDisasm DefaultProofs SpecText SpecProgram SpecDefault.

(** ** C04  Default-mode listing reassembles to the same words *)

Definition C04_full (oc : bool) (rt : runtime) : Prop :=
  forall base ws, is_word base -> Forall is_word ws -> Forall (canonical base) ws -> base + 4 * Z.of_nat (List.length ws) <= 2 ^ 32 ->
  exists ls out, disassemble oc (set_base base m_new) ws = Ok ls
    /\ assemble rt (set_base base m_new) (join [nl] ls) = Ok out /\ get_bytes out = ws.

(** The default-mode round trip of one word. *)
Definition default_trip (oc : bool) (rt : runtime) (base w : Z) : option (outcome (list perror) (list Z)) :=
  match disassemble oc (set_base base m_new) [w] with
  | Ok ls => Some (match assemble rt (set_base base m_new) (join [nl] ls) with
                   | Ok out => Ok (get_bytes out) | Err e => Err e | Panic p => Panic p end)
  | _ => None
  end.

(** The failures of C03, and one more: the tab after the name of a float comparison. *)
Theorem C04_failures : forall oc o2, let rt := mk_runtime o2 (fun l => l) in
  (exists es, default_trip oc rt 0x80000000 0x1000ffff = Some (Err es))
  /\ (exists p, default_trip oc rt 0x80000000 0x7fffffff = Some (Panic p))
  /\ (exists es, default_trip oc rt 0x80000000 0x40883800 = Some (Err es))
  /\ (exists es, default_trip oc rt 0x80000000 0x0040000d = Some (Err es))
  /\ default_trip oc rt 0x80000000 0x09000000 = Some (Ok [0x08000000])
  /\ default_trip oc rt 0x80000000 0x20007fff = Some (Ok [0x20008001])
  /\ (exists p, default_trip oc rt 0x80000000 0x46062032 = Some (Panic p)).
Proof.
  intros oc o2 rt. unfold rt.
  split; [destruct oc, o2; eexists; vm_compute; reflexivity|]. split; [destruct oc, o2; eexists; vm_compute; reflexivity|].
  split; [destruct oc, o2; eexists; vm_compute; reflexivity|]. split; [destruct oc, o2; eexists; vm_compute; reflexivity|].
  split; [destruct oc, o2; vm_compute; reflexivity|]. split; [destruct oc, o2; vm_compute; reflexivity|].
  destruct oc, o2; eexists; vm_compute; reflexivity.
Qed.
Theorem C04_refuted : forall oc o2, ~ C04_full oc (mk_runtime o2 (fun l => l)).
Proof.
  intros oc o2 H. destruct (H 0x80000000 [0x20007fff]) as (ls & out & D & A & B).
  - unfold is_word. lia.
  - constructor; [unfold is_word; lia|constructor].
  - constructor; [|constructor]. intros f R. vm_compute in R. injection R as <-. vm_compute. reflexivity.
  - vm_compute. discriminate.
  - assert (E : disassemble oc (set_base 0x80000000 m_new) [0x20007fff] = Ok [ #"func_80000000:"; #"addi       $zero, $zero, -0x7fff" ]) by (destruct oc; vm_compute; reflexivity).
    rewrite E in D. injection D as <-. destruct o2; vm_compute in A; injection A as <-; vm_compute in B; discriminate B.
Qed.

(** With any readable symbol table, in both build profiles: a program whose words come back
    one by one in debug mode, without tabbed comparisons and without a [j] to a symbol, has a
    default listing, and this listing assembles to the program, wherever labels fall. *)
Theorem C04_default_partial : forall oc rt m ws, m_debug m = false -> is_word (m_base m) -> Forall is_word ws ->
  m_base m + 4 * Z.of_nat (List.length ws) <= 2 ^ 32 -> Forall (returns (m_base m)) ws -> Forall tab_free ws -> readable (m_syms m) ->
  (forall w, In w ws -> field w 26 6 = 2 -> forall n, ~ In (jump_address (m_base m) w, n) (m_syms m)) ->
  exists ls out, disassemble oc m ws = Ok ls /\ assemble rt m (join [nl] ls) = Ok out /\ get_bytes out = ws.
Proof.
  intros oc rt m ws D B W L R T S J. destruct (C06_default_total_partial oc m ws B W L J) as [ls E].
  destruct (default_returns oc rt m ws ls D B W L R T S E) as (out & A & G). eauto.
Qed.
(** Without symbols. *)
Theorem C04_plain_partial : forall oc rt base ws, is_word base -> Forall is_word ws ->
  base + 4 * Z.of_nat (List.length ws) <= 2 ^ 32 -> Forall (returns base) ws -> Forall tab_free ws ->
  exists ls out, disassemble oc (set_base base m_new) ws = Ok ls /\ assemble rt (set_base base m_new) (join [nl] ls) = Ok out /\ get_bytes out = ws.
Proof.
  intros oc rt base ws B W L R T. apply C04_default_partial; auto; try reflexivity.
  split; [constructor|constructor|intros a n []|intros a n []].
Qed.

(** Two functions, a call of a symbol and [c.ngle]. *)
Definition C04_program : list Z := [0x27bdffe0; 0x0c00a3f4; 0x00000000; 0x03e00008; 0x27bd0020; 0x46062039; 0x3c01ffff].
Definition C04_machine : mipsasm := set_symbols [(0x80028fd0, #"memcpy"); (0x80000014, #"next")] (set_base 0x80000000 m_new).
Example C04_case : Forall is_word C04_program /\ Forall (returns 0x80000000) C04_program /\ Forall tab_free C04_program /\ readable (m_syms C04_machine)
  /\ (forall w, In w C04_program -> field w 26 6 = 2 -> forall n, ~ In (jump_address 0x80000000 w, n) (m_syms C04_machine))
  /\ disassemble true C04_machine C04_program = Ok [ #"func_80000000:"; #"addiu      $sp, $sp, -0x20"; #"jal        memcpy"; #"sll        $zero, $zero, 0x0"; #"jr         $ra"; #"addiu      $sp, $sp, 0x20";
     []; #"next:"; #"c.ngle.s    $ft0, $ft1"; #"lui        $at, 0xffff" ].
Proof.
  split; [repeat (constructor; [unfold is_word; lia|]); constructor|]. split; [|split; [|split; [|split]]].
  - unfold C04_program. repeat (constructor; [eapply returns_by; [vm_compute; reflexivity|vm_compute; discriminate|vm_compute; reflexivity
      |vm_compute; reflexivity| |vm_compute; discriminate];
      repeat (constructor; [split; [cbn; lia|cbn; try exact I; try lia]|]); constructor|]). constructor.
  - unfold C04_program. repeat (constructor; [intros f R; vm_compute in R; injection R as <-; vm_compute; auto|]). constructor.
  - split.
    + repeat constructor; cbn; intuition congruence.
    + repeat constructor; cbn; intuition congruence.
    + intros a n [E|[E|[]]]; injection E as <- <-; split; vm_compute; reflexivity.
    + intros a n [E|[E|[]]]; injection E as <- <-; vm_compute; reflexivity.
  - intros w I E. exfalso. unfold C04_program in I. repeat (destruct I as [<-|I]; [vm_compute in E; discriminate E|]). destruct I.
  - vm_compute. reflexivity.
Qed.

Print Assumptions C04_refuted.
Print Assumptions C04_failures.
Print Assumptions C04_default_partial.
