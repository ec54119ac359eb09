(** Layouts of times. *)
From Coq Require Import Strings.String Strings.Ascii NArith ZArith List Bool.
From Verif Require Import GoStr GoNum Syntax Value Util Time Spec_syntax Spec_base Spec_util Spec_time Time_proofs Layout3_proofs Spec_layout.
Import ListNotations.
Open Scope string_scope.

(** C94: with a layout given by WithTimeFormat a time becomes what that layout
    says of the nearest microsecond, between quotes; the zero time becomes
    '0000-00-00' with any layout. *)
Theorem c94_literal : forall zs layout t s, encode_value (fmt_time zs layout) (VTime t) = ROk s <->
  (t_ns t = 0%Z /\ s = "'0000-00-00'") \/
  (t_ns t <> 0%Z /\ exists m M x, nearest_us (t_ns t) m /\ moment_at zs m (t_loc t) M /\ formats M layout x /\ s = "'" ++ x ++ "'").
Proof. exact time_literal_with. Qed.
Print Assumptions c94_literal.
(** Every time has one moment, and every layout says one thing of it. *)
Theorem c94_moment : forall zs ns loc, exists M, moment_at zs ns loc M /\ forall M', moment_at zs ns loc M' -> M' = M.
Proof. exact moment_exists. Qed.
Print Assumptions c94_moment.
Theorem c94_layout : forall zs t M, moment_at zs (t_ns t) (t_loc t) M -> forall layout s, formats M layout s <-> s = format zs layout t.
Proof. exact layout_formats. Qed.
Print Assumptions c94_layout.
(** A layout that contains no element is the text of every time ... *)
Theorem c94_plain : forall zs l t, (forall p e r, l = p ++ e ++ r -> ~ stands e r) -> format zs l t = l.
Proof. exact plain_layout. Qed.
Print Assumptions c94_plain.
(** ... but words and numbers of a layout may be taken for elements, the hours
    of a twelve-hour clock do not tell morning from evening, and a sign may
    be set before the seconds of an offset. *)
Theorem c94_refuted : exists zs t u, t_ns t <> t_ns u /\
  format zs "v1 Jan" t = "v6 Jun" /\ format zs "2006-01-02 03:04:05" t = format zs "2006-01-02 03:04:05" u /\ format zs "-07:00:00" t = "+00:00:-30".
Proof.
  exists (fun _ _ => ("", -30)%Z), (GoTime (1000000000 * 86400 * 160) 0 None), (GoTime (1000000000 * (86400 * 160 - 43200)) 0 None).
  split; [vm_compute; discriminate|]. repeat apply conj; vm_compute; reflexivity.
Qed.
Print Assumptions c94_refuted.

Example c94_example :
  (exists M, moment_at mst (t_ns example_time) (t_loc example_time) M /\ formats M "Jan _2, 3pm .99 (MST) January2006" "Jan  2, 3pm .12 (MST) January2006") /\
  encode_value (fmt_time mst "Mon 02 Jan 06 002 __2 15h4m5,000 Z07") (VTime example_time) = ROk "'Mon 02 Jan 06 002   2 15h4m5,123 -07'" /\
  encode_value (fmt_time mst "Monday") (VTime (GoTime 0 1 None)) = ROk "'0000-00-00'" /\
  (forall p e r, "xyz" = p ++ e ++ r -> ~ stands e r).
Proof.
  split.
  - destruct (c94_moment mst (t_ns example_time) (t_loc example_time)) as (M & H & _). exists M. split; [exact H|]. apply (c94_layout mst example_time M H). vm_compute. reflexivity.
  - split; [vm_compute; reflexivity|]. split; [vm_compute; reflexivity|]. intros p e r E K.
    assert (N : forall t r0, stands t r0 -> exists a t', t = String a t' /\ a <> "x"%char /\ a <> "y"%char /\ a <> "z"%char).
    { intros t r0 [t' r' H _|t' r' f H _|sep d run t' r' (H & _ & _ & _ & ->) _].
      - cbn [In] in H. repeat (destruct H as [<-|H]; [eexists; eexists; repeat split; discriminate|]). destruct H.
      - unfold elements in H. cbn [In] in H. repeat (destruct H as [H|H]; [injection H as <- _; eexists; eexists; repeat split; discriminate|]). destruct H.
      - exists sep, run. cbn [In] in H. destruct H as [<-|[<-|[]]]; repeat split; discriminate. }
    destruct (N _ _ K) as (a & t' & -> & N1 & N2 & N3). destruct p as [|b p]; [injection E as E _; congruence|]. destruct p as [|b' p]; [injection E as _ E _; congruence|].
    destruct p as [|b'' p]; [injection E as _ _ E _; congruence|]. destruct p; discriminate E.
Qed.
