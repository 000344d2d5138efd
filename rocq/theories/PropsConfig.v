(** The settings of clients (C67). *)

From Coq Require Import Ascii String List NArith ZArith Bool.
From Verif Require Import Base ModelUtil ModelMessage ModelState ModelClient ModelWorld SpecConfig Samples ProofConfig.
Import ListNotations.

(** C67: after any history of operations on any number of clients, whatever
    the network did, the getters of every client show exactly the settings
    that the successful operations established. *)
Theorem C67_settings : forall ops e,
  map (option_map shown) (w_clients (snd (run ops (initial_world e)))) =
  fold_left intended (combine ops (fst (run ops (initial_world e)))) [].
Proof. exact settings_kept. Qed.
Print Assumptions C67_settings.

(** A history with every kind of operation, one refused server name and one
    mail that fails. *)
Definition varied : list op :=
  [ONew KOpp server 25; OSetBatch 0 true; OSetTimeout 0 7; OSetCred 0 joe_cred; OSetKeep 0 true; OSetSelfSigned 0 true;
   OCopy 0; OSetServer 1 (Some (B "  ")); OSetServer 1 (Some (B "mail.example.org")); OSetPort 1 4294967321;
   OSend 1 hi; OMove 1; OSetBatch 2 false; ONew KOpp server 26; OCopyAssign 3 2; OMoveAssign 0 3; ODestroy 2].
Example C67_example :
  let r := run varied (initial_world (wire (told "220 ready" ++ said "550 no"))) in
  fst r = repeat (Done 0%Z) 7 ++ [Throw; Done 0%Z; Done 0%Z; Done 550%Z] ++ repeat (Done 0%Z) 6 /\
  map (option_map shown) (w_clients (snd r)) =
    [Some (mkSettings KOpp (Some (B "mail.example.org")) 25 false 7 (Some joe_cred) true);
     Some (mkSettings KOpp None 0 false 0 None false); None;
     Some (mkSettings KOpp None 0 false 0 None false)].
Proof. vm_compute. split; reflexivity. Qed.
