#!/usr/bin/env python3
"""Write theories/ActSpec{1..4}.v and ActSpec.v: one lemma per grammar rule (see GrammarDef.v)."""
import re, os
d = os.path.join(os.path.dirname(os.path.abspath(__file__)), '..', 'rocq', 'theories')
rules = re.findall(r'^  \((\d+), \((\w+), \[([^\]]*)\]\)\);?', open(os.path.join(d, 'GrammarDef.v')).read(), re.M)
special = {93, 95, 132, 47, 44, 37, 42, 48, 162, 294, 179, 46, 296, 297, 3, 4, 182, 274, 58, 55, 56, 66, 298}
steps = {36, 50, 51, 73, 92, 94, 125, 128, 129, 133, 223, 224, 225, 226, 228, 300, 309, 310}
todo = [(int(r), l, h) for r, l, h in rules if int(r) not in special and int(r) not in (1, 2)]
n = 4
for i in range(n):
    with open(os.path.join(d, f'ActSpec{i+1}.v'), 'w') as f:
        f.write('(** Generated by tools/gen_actspec.py: the actions of the grammar rules meet their specification.  No code of /repo. *)\n')
        f.write('From Verif Require Import ActTac.\n\n')
        for r, l, h in todo[i::n]:
            tac = 'start; steps; fin' if r in steps else 'plain_tac'
            f.write(f'Lemma act_{r} : act_spec {r} {l} [{h}].\nProof. {tac}. Qed.\n')
with open(os.path.join(d, 'ActSpec.v'), 'w') as f:
    f.write('(** Generated by tools/gen_actspec.py: all actions meet their specification.  No code of /repo. *)\n')
    f.write('From Verif Require Import ActTac ActSpecial3 ActSpec1 ActSpec2 ActSpec3 ActSpec4.\nLocal Open Scope N_scope.\n\n')
    f.write('Theorem actions_correct r lhs rhs : production r = Some (lhs, rhs) -> r <> 1 -> r <> 2 -> act_spec r lhs rhs.\nProof.\n')
    f.write('  intros P N1 N2. unfold production in P.\n')
    f.write('  destruct (find (fun p => N.eqb (fst p) r) grammar) as [[r1 x]|] eqn:F; [|discriminate]. injection P as ->.\n')
    f.write('  apply find_some in F as [I E]. cbn [fst] in E. apply N.eqb_eq in E as ->.\n')
    f.write('  unfold grammar in I. cbn [In] in I.\n')
    f.write('  repeat (destruct I as [I|I]; [injection I as <- <- <-|]); try (destruct I); try congruence.\n')
    for r, l, h in rules:
        if int(r) > 2: f.write(f'  - exact act_{r}.\n')
    f.write('Qed.\n')
