"""Report model definitions that are not directly preceded by a comment citing /repo lines."""
import re,sys
for p in sys.argv[1:]:
    L=open(p).read().split('\n')
    for i,l in enumerate(L):
        m=re.match(r'(Definition|Fixpoint|Record|Inductive|Function) (\w+)',l)
        if m:
            # find the preceding comment end
            j=i-1
            if not (j>=0 and L[j].rstrip().endswith('*)')):
                print(p,i+1,m.group(2)); continue
            k=j
            while '(*' not in L[k]: k-=1
            t=' '.join(L[k:j+1])
            if not re.search(r'\.rs',t): print(p,i+1,m.group(2),'no cite')
