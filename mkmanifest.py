#!/usr/bin/env python3
"""Regenerate MANIFEST.json from the theorem names in rocq/theories/*.v.
A theorem named Cnn_... supports property Cnn.  Status: 'proved' unless the id
is listed in PARTIAL (with the reason) or has no theorem."""
import json,re,glob
PARTIAL={
"C02":"True for the three-index accessors; refuted for the short overloads on a matrix that has lost its shelves (set_shel(0)).",
"C05":"operator= is right for sources with one shelf; refuted for sources with more shelves (dropped) and for empty sources (process exits).",
"C13":"set_col works on square matrices only; refuted otherwise (throws for a right-length column).",
"C14":"swap_row proved on shelf 1; swap_col only for square matrices, refuted otherwise; other shelves are not exchanged.",
"C15":"move_row proved; move_col only for square matrices, refuted otherwise.",
"C16":"getRow proved; getCol right for square matrices only, refuted for tall and wide ones.",
"C17":"shrinking rows keeps the remaining elements; growing and changing columns or shelves refuted (indeterminate or misplaced elements).",
"C23":"terminates when no place is claimed twice; refuted otherwise (infinite loop). Exact for every match vector: it runs forever iff some cycle of the match is entered from a later place (C23_dimer_exact_partial, C23_single_exact_partial).",
"C24":"safe for complete one-to-one matches; refuted when an atom has no counterpart (iterator before begin). Exact for every match that ends: safe iff every place names an atom and there are no more places than atoms (C24_dimer_exact_partial, C24_single_exact_partial).",
"C36":"proved when the sizes agree; refuted: monomers together narrower than the dimer, or a wrong number of energies, are accepted and then exit(1). C36_exact_partial gives the outcome for every combination of shapes the constructor accepts.",
"C37":"proved for square energy matrices (getCol defect) and any correct sort; refuted for the usual column of 2 or more energies (exit(1)). C37_exact_partial gives the result for every two shapes, C37_right_iff_square_partial: right iff both matrices are square.",
"C21":"proved for one shelf; refuted for more (only shelf 1 is printed, repeatedly).",
}
NOTE={}
NA={}
try:
    exec(open('/verif/manifest_notes.py').read())
except FileNotFoundError:
    pass
props=[json.loads(l) for l in open('/verif/properties.jsonl')]
th={}
for f in sorted(glob.glob('/verif/rocq/theories/*.v')):
    for m in re.finditer(r'^(?:Theorem|Lemma|Corollary) (C\d\d\d?)_(\w+)',open(f).read(),re.M):
        th.setdefault(m.group(1),[]).append(m.group(1)+'_'+m.group(2))
claims=[]
for p in props:
    i=p['id']; t=th.get(i,[])
    if t:
        claims.append({"property":i,"status":"partial" if i in PARTIAL else "proved","theorems":t,"note":PARTIAL.get(i,NOTE.get(i,""))})
    elif i in NA:
        claims.append({"property":i,"status":"not_applicable","theorems":[],"note":NA[i]})
json.dump({"claims":claims},open('/verif/MANIFEST.json','w'),indent=1)
print(len(claims),"claims;",len(props)-len(claims),"properties without theorem:",[p['id'] for p in props if p['id'] not in th and p['id'] not in NA])
