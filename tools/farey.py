import sys
from fractions import Fraction as F
sys.set_int_max_str_digits(0) if hasattr(sys,'set_int_max_str_digits') else None
from math import log
T={2:1000000000,3:630929754,4:500000000,5:430676558,6:386852807,7:356207187,8:333333333,9:315464877,10:301029996,11:289064826,12:278942946,13:270238154,14:262649535,15:255958025,16:250000000,17:244650542,18:239812467,19:235408913,20:231378213,21:227670249,22:224243824,23:221064729,24:218104292,25:215338279,26:212746054,27:210309918,28:208014598,29:205846832,30:203795047,31:201849087,32:200000000,33:198239863,34:196561632,35:194959022,36:193426404}
c53=2**53
def rne(n,d):
    q,r=divmod(n,d)
    if 2*r<d: return q
    if 2*r>d: return q+1
    return q if q%2==0 else q+1
def rnd(n,d):
    e0=n.bit_length()-d.bit_length()-52
    def sn(e): return n*2**(-e) if e<0 else n
    def sd(e): return d if e<0 else d*2**e
    e=e0-1 if sn(e0)<2**52*sd(e0) else e0
    return F(rne(sn(e),sd(e)))*F(2)**e
def fr(x): return rnd(x.numerator,x.denominator)
def outlen(n,r):
    return int(fr(fr(F(n)*fr(F(T[r],10**9)))+fr(F(999999,10**6))))
def powdown(k,r):
    m,e=r,0
    for _ in range(k):
        m=m*m; e=2*e
        s=max(0,m.bit_length()-1-100)
        m>>=s; e+=s
    return m.bit_length()-1+e
K=64
G=10**12+10**6
LIM=2**30
def simplest(lo,hi):
    # simplest fraction strictly in (lo,hi) with Stern-Brocot parents; lo<hi ; accelerate
    a,b,c,d=0,1,1,0
    while True:
        p,q=a+c,b+d
        m=F(p,q)
        if m<=lo:
            # move right: a/b := (a+k c)/(b+k d) max k with <= lo
            # (a+kc)/(b+kd)<=lo  <=> k(c - lo d) <= lo b - a
            k=int((lo*b-a)/(c-lo*d)); k=max(k,1)
            a,b=a+k*c,b+k*d
        elif m>=hi:
            # (c+ka)/(d+kb)>=hi <=> c-hi d >= k(hi b - a)
            k=int((c-hi*d)/(hi*b-a)); k=max(k,1)
            c,d=c+k*a,d+k*b
        else: return a,b,c,d
def gen(r):
    t=fr(F(T[r],10**9))*F(c53-1,c53)**3
    Tr=int(t*10**18)
    M=powdown(K,r)
    U=F(2**K,M)
    n=1; segs=[]
    while n<=LIM:
        x=F(n*Tr-G,n*10**18)
        if x>=U:
            # c/d in [U,x]
            a,b,c,d=simplest(U,x) if x>U else (None,)*4
            segs.append((n,0,0,a+c,b+d)); return segs,LIM
        a,b,c,d=simplest(x,U)
        nn=b+d
        if nn<=n:
            return segs,n-1
        segs.append((n,a,b,c,d))
        n=nn
    return segs,LIM
if __name__=="__main__":
    tot=0
    for r in range(2,37):
        s,l=gen(r); tot+=len(s)
        print(r,l,len(s),s[-1], 'LIM' if l==LIM else '')
    print(tot)
