(** C91: values read with a conversion of the caller. *)
From Verif Require Import Base Sexpr_Model Dispatch_Model Data_Model Load_Model.

(** C91. Reading converted values succeeds if and only if the texts can be read (see C91_strings) and each
    of them can be converted; the values are added in the order of the texts. *)
Theorem C91_load_as : forall (T : Type) (read_file : str -> option str) (conv : str -> outcome T) (e : list expr) (dst dst' : list T),
  data_load_as read_file conv e dst = (dst', Ret tt) <->
  exists texts values, data_load_strings read_file e [] = (texts, Ret tt) /\ Forall2 (fun t v => conv t = Ret v) texts values /\ dst' = dst ++ values.
Proof.
  intros T rf conv e dst dst'.
  assert (L : forall data dst dst', load_each conv data dst = (dst', Ret tt) <-> exists values, Forall2 (fun t v => conv t = Ret v) data values /\ dst' = dst ++ values).
  { clear. induction data as [|t data IH]; intros dst dst'; cbn [load_each].
    - split; [intro H; injection H as <-; exists []; split; [constructor|now rewrite app_nil_r]|]. intros (vs & F & ->). inversion F; subst. now rewrite app_nil_r.
    - destruct (conv t) as [x| | | |] eqn:C; try (split; [discriminate|]; intros (vs & F & _); inversion F; subst; congruence). rewrite IH. split.
      + intros (vs & F & ->). exists (x :: vs). split; [now constructor|now rewrite <- app_assoc].
      + intros (vs & F & ->). inversion F as [|? y ? r Y R]; subst. rewrite C in Y. injection Y as <-. exists r. split; [exact R|now rewrite <- app_assoc]. }
  unfold data_load_as. destruct (data_load_strings rf e []) as [data o]. destruct o as [[]| | | |]; try (split; [discriminate|]; intros (x & y & H & _); discriminate).
  rewrite L. split.
  - intros (vs & F & ->). now exists data, vs.
  - intros (x & vs & H & F & ->). injection H as <-. now exists vs.
Qed.
Print Assumptions C91_load_as.
(** C91, refuted: a list that cannot be read leaves the values as they were. The values before the first
    one that cannot be converted are added. *)
Theorem C91_load_as_refuted : forall (T : Type) (read_file : str -> option str) (conv : str -> outcome T) (e : list expr) (dst : list T) (before : list str) (bad : str) (after : list str) (values : list T),
  data_load_strings read_file e [] = (before ++ bad :: after, Ret tt) -> Forall2 (fun t v => conv t = Ret v) before values -> conv bad = Err ->
  data_load_as read_file conv e dst = (dst ++ values, Err).
Proof.
  intros T rf conv e dst before bad after values D F B. unfold data_load_as. rewrite D. clear D. revert dst. induction F as [|t v before values C F IH]; intro dst; cbn [app load_each].
  - now rewrite B, app_nil_r.
  - now rewrite C, IH, <- app_assoc.
Qed.
Print Assumptions C91_load_as_refuted.
Example C91_load_as_case :
  data_load_as (fun _ => None) (fun t => match t with [] => Err | c :: _ => Ret c end) [ELit (s_ "ab"); EVal (s_ "c")] ["z"%char] = (["z"; "a"; "c"]%char, Ret tt) /\
  data_load_as (fun _ => None) (fun t => match t with [] => Err | c :: _ => Ret c end) [ELit (s_ "ab"); EVal []; EVal (s_ "c")] ["z"%char] = (["z"; "a"]%char, Err).
Proof. split; reflexivity. Qed.
