(** Text: splitting at a character, decimal digits. *)
From Coq Require Import DecimalString DecimalNat DecimalZ Ascii.
From Verif Require Import Prelude.
Open Scope Z_scope.

Definition newline : string := String (ascii_of_nat 10) EmptyString.

(** Python's str.split with one character. *)
Fixpoint split (c : ascii) (s : string) : list string :=
  match s with
  | EmptyString => [EmptyString]
  | String x r => if Ascii.eqb x c then EmptyString :: split c r
                  else match split c r with h :: t => String x h :: t | [] => [] end
  end.
Fixpoint free (c : ascii) (s : string) : Prop := match s with EmptyString => True | String x r => Ascii.eqb x c = false /\ free c r end.
Lemma split_free c s : free c s -> split c s = [s].
Proof. induction s as [|x s IH]; simpl; [reflexivity|]. intros [-> H]. now rewrite IH. Qed.
Lemma split_join c a b : free c a -> split c (a ++ String c b) = a :: split c b.
Proof.
  induction a as [|x a IH]; simpl; [rewrite Ascii.eqb_refl; reflexivity|].
  intros [-> H]. now rewrite IH.
Qed.
Lemma free_app c a b : free c a -> free c b -> free c (a ++ b).
Proof. induction a as [|x a IH]; simpl; tauto. Qed.
Lemma sapp_assoc a b c : ((a ++ b) ++ c = a ++ (b ++ c))%string.
Proof. induction a as [|x a IH]; simpl; [reflexivity|]. now rewrite IH. Qed.
Lemma newline_app x : (newline ++ x)%string = String (ascii_of_nat 10) x.
Proof. reflexivity. Qed.
Lemma sapp_nil a : (a ++ "" = a)%string.
Proof. induction a as [|x a IH]; simpl; [reflexivity|]. now rewrite IH. Qed.
Lemma concat_cons x l : String.concat "" (x :: l) = (x ++ String.concat "" l)%string.
Proof. simpl. destruct l; [now rewrite sapp_nil|reflexivity]. Qed.

Definition nondigit (c : ascii) : Prop := forall d, In d ["0"; "1"; "2"; "3"; "4"; "5"; "6"; "7"; "8"; "9"]%char -> Ascii.eqb d c = false.
Lemma uint_free c (d : Decimal.uint) : nondigit c -> free c (NilEmpty.string_of_uint d).
Proof.
  intros H. induction d; cbn [NilEmpty.string_of_uint free]; [exact Logic.I|..]; split; try assumption; apply H; cbn [In]; tauto.
Qed.
Lemma nondigit_space : nondigit " ". Proof. intros d Hd. simpl in Hd. repeat (destruct Hd as [<-|Hd]; [reflexivity|]). destruct Hd. Qed.
Lemma nondigit_newline : nondigit (ascii_of_nat 10). Proof. intros d Hd. simpl in Hd. repeat (destruct Hd as [<-|Hd]; [reflexivity|]). destruct Hd. Qed.
